(** Consequences of the invariants, in the form the property theorems use. *)
From Coq Require Import Sorted Permutation PeanoNat.
From Verif Require Import Base Locks LocksSpec LocksProofs Postgres PostgresSpec PostgresProofs PostgresStream PostgresAck PostgresMore.

Section Facts.
Variable j : jlib.
Variable key : string -> N.
Variable limit : nat.
Notation gstep := (gstep j key limit).
Notation grun := (grun j key limit).
Notation gcase := (gcase j key).

Record Kept0 (s : string) (k : pgconf) : Prop := { k0_good : Good j key k; k0_stream : Stream s k; k0_told : Told k }.
Lemma kept0_run s ls : forall k k', Kept0 s k -> always j key limit (apart s) k ls -> grun k ls = Some k' -> Kept0 s k'.
Proof.
  intros k k' [H1 H2 H3] HA E. destruct (stream_run _ _ _ _ _ _ _ H1 H2 HA E). split; auto.
  revert k k' H3 E HA H1 H2 H H0. intros. eapply (run_inv j key limit Told); eauto. intros. eapply told_step; eauto.
Qed.
Lemma kept0_start s : Kept0 s pg_start.
Proof. split; [apply good_start|apply stream_start|apply told_start]. Qed.

Lemma app_eq_parts {A} (a b c d : list A) : a ++ b = c ++ d -> length a = length c -> a = c /\ b = d.
Proof.
  revert c. induction a as [|x a IH]; intros [|y c] E H; cbn in *; try discriminate; auto.
  injection E as -> E. destruct (IH c E) as [-> ->]; auto.
Qed.

(** ** Blocks at different places start at different positions *)
Lemma same_start_same_block (bl : list (nat * list record)) l1 i1 b1 r1 l2 i2 b2 r2 :
  (forall i b, In (i, b) bl -> b <> []) ->
  bl = l1 ++ (i1, b1) :: r1 -> bl = l2 ++ (i2, b2) :: r2 ->
  length (concat (map snd l1)) = length (concat (map snd l2)) -> i1 = i2.
Proof.
  intros Hne. revert bl l2 Hne. induction l1 as [|[a x] l1 IH]; intros bl l2 Hne E1 E2 El.
  - destruct l2 as [|[a x] l2]; [cbn in *; congruence|]. exfalso. cbn in El. rewrite app_length in El. subst bl. cbn in E2. injection E2 as -> -> E2.
    specialize (Hne a x (or_introl eq_refl)). destruct x; [contradiction|cbn in El; lia].
  - destruct l2 as [|[a' x'] l2].
    + exfalso. cbn in El. rewrite app_length in El. subst bl. cbn in E2. injection E2 as -> -> E2.
      specialize (Hne i2 b2 (or_introl eq_refl)). destruct b2; [contradiction|cbn in El; lia].
    + subst bl. cbn in E2. injection E2 as -> -> E2. cbn in El. rewrite !app_length in El.
      eapply (IH (l1 ++ (i1, b1) :: r1) l2); eauto; [|lia]. intros i b Hi. apply (Hne i b). now right.
Qed.

Lemma winners s k i1 i2 x evs1 cn1 n1 bc1 evs2 cn2 n2 bc2 : Kept j key s k ->
  In (Inv i1 (OpSave (Some x) s evs1 cn1)) (g_hist k) -> In (Ret i1 (OutSaved n1 bc1)) (g_hist k) ->
  In (Inv i2 (OpSave (Some x) s evs2 cn2)) (g_hist k) -> In (Ret i2 (OutSaved n2 bc2)) (g_hist k) -> i1 = i2.
Proof.
  intros [HG HT HS (bl & HB)] I1 R1 I2 R2.
  destruct (b_ret _ _ _ _ HB _ _ _ _ _ _ I1 R1) as (m1 & M1 & _). destruct (b_ret _ _ _ _ HB _ _ _ _ _ _ I2 R2) as (m2 & M2 & _).
  apply in_split in M1 as (l1 & r1 & E1). apply in_split in M2 as (l2 & r2 & E2).
  destruct (b_call _ _ _ _ HB _ _ _ _ E1) as (ex1 & ev1 & c1 & p1 & C1 & _ & _ & _ & X1).
  destruct (b_call _ _ _ _ HB _ _ _ _ E2) as (ex2 & ev2 & c2 & p2 & C2 & _ & _ & _ & X2).
  destruct (t_inv _ HT _ _ I1) as (q1 & Q1). destruct (t_inv _ HT _ _ I2) as (q2 & Q2).
  rewrite C1 in Q1. injection Q1 as -> _ _ _. rewrite C2 in Q2. injection Q2 as -> _ _ _.
  specialize (X1 _ eq_refl). specialize (X2 _ eq_refl).
  eapply (same_start_same_block bl); [|exact E1|exact E2|lia].
  intros i b Hi. apply in_split in Hi as (l & r & E). destruct (b_call _ _ _ _ HB _ _ _ _ E) as (? & ? & ? & ? & _ & _ & _ & Hb & _). exact Hb.
Qed.

Lemma notify_true rows bc : notify j rows = (bc, true) -> Forall2 (fun r x => decode_row j r = Some x) rows bc.
Proof.
  revert bc. induction rows as [|r rows IH]; intros bc; cbn; [intros E; injection E as <-; constructor|].
  destruct (decode_row j r) as [x|] eqn:Ed; [|discriminate]. destruct (notify j rows) as [l ok]. intros E. injection E as <- ->. constructor; auto.
Qed.

Lemma decoded_events s evs rows bc : json_ok j -> Forall2 (row_for j s) evs rows -> Forall2 (fun r x => decode_row j r = Some x) rows bc ->
  Forall2 (record_for s) evs bc.
Proof.
  intros Hj H1. revert bc. induction H1 as [|e r evs rows (R1 & R2 & R3 & R4 & R5 & R6 & R7 & R8) H IH]; intros bc H2; inversion H2; subst; constructor; auto.
  match goal with H : decode_row j r = Some _ |- _ => rename H into Hd end.
  unfold decode_row in Hd. rewrite R6, (Hj _ _ R7) in Hd. destruct (String.eqb _ _); [|discriminate]. injection Hd as <-. repeat split; auto.
Qed.
Lemma two_length {A B} (P : A -> B -> Prop) l l' : Forall2 P l l' -> length l = length l'.
Proof. induction 1; cbn; auto. Qed.

(** An acknowledged save is a block of the stream. *)
Lemma acknowledged s k i ex evs cn n bc : Kept j key s k ->
  In (Inv i (OpSave ex s evs cn)) (g_hist k) -> In (Ret i (OutSaved n bc)) (g_hist k) ->
  exists pre block post, rows_of s (g_rows k) = pre ++ block ++ post
    /\ (forall x, ex = Some x -> x = N.of_nat (length pre)) /\ n = N.of_nat (length pre) + N.of_nat (length evs)
    /\ Forall2 (row_for j s) evs block /\ Forall2 (fun r x => decode_row j r = Some x) block bc.
Proof.
  intros [HG HT HS (bl & HB)] I R. destruct (b_ret _ _ _ _ HB _ _ _ _ _ _ I R) as (m & M & Hno & Hn).
  apply in_split in M as (l & r & E). destruct (b_call _ _ _ _ HB _ _ _ _ E) as (ex1 & ev1 & c1 & p1 & C1 & _ & F & Hne & X).
  destruct (t_inv _ HT _ _ I) as (q & Q). rewrite C1 in Q. injection Q as -> -> -> _.
  exists (concat (map snd l)), m, (concat (map snd r)).
  assert (ER : rows_of s (g_rows k) = concat (map snd l) ++ m ++ concat (map snd r)) by (rewrite (b_rows _ _ _ _ HB), E, map_app, concat_app; reflexivity).
  split; auto. split; auto. split; [|split; [auto|now apply notify_true]].
  rewrite Hn, (two_length _ _ _ F). pose proof (st_ssn _ _ HS) as E1. rewrite ER, !map_app, !app_length, !numbers_app in E1.
  assert (L1 : length (map r_ssn (concat (map snd l))) = length (numbers_from 1 (length (concat (map snd l))))) by (unfold numbers_from; now rewrite !map_length, seq_length).
  assert (L2 : length (map r_ssn m) = length (numbers_from (1 + N.of_nat (length (concat (map snd l)))) (length m))) by (unfold numbers_from; now rewrite !map_length, seq_length).
  apply app_eq_parts in E1 as [_ E1]; auto. apply app_eq_parts in E1 as [E1 _]; auto.
  destruct (exists_last Hne) as (m0 & z & ->). rewrite app_length in *. cbn [length] in *. rewrite Nat.add_1_r in *. rewrite numbers_snoc, map_app in E1.
  apply app_inj_tail in E1 as [_ E1]. unfold last_ssn. rewrite fold_left_app. cbn. lia.
Qed.

(** ** Any run: what an acknowledged save wrote *)
Record Acked (k : pgconf) : Prop := {
  ak_told : Told k; ak_shape : Shape j k;
  ak_ret : forall i n bc, In (Ret i (OutSaved n bc)) (g_hist k) -> exists ex s evs cn mine,
    In (Inv i (OpSave ex s evs cn)) (g_hist k) /\ Forall2 (row_for j s) evs mine /\ notify j mine = (bc, true)
}.
Lemma acked_step k lb k' : Acked k -> gcase k lb k' -> Acked k'.
Proof.
  intros [T S A] C. pose proof (told_step _ _ _ _ _ T C) as T'. pose proof (shape_step _ _ _ _ _ S C) as S'. split; auto.
  assert (Old : forall h i n bc, In (Ret i (OutSaved n bc)) (g_hist k) -> exists ex s evs cn mine,
    In (Inv i (OpSave ex s evs cn)) (g_hist k ++ h) /\ Forall2 (row_for j s) evs mine /\ notify j mine = (bc, true)).
  { intros h i n bc H. destruct (A _ _ _ H) as (ex & s & evs & cn & mine & H1 & H2). exists ex, s, evs, cn, mine. rewrite in_app_iff. auto. }
  destruct C as [o|lb i o p p' lk h bc Hn Hq|lb i o r todo mine Hn|lb i o mine p' h Hn Hp|lb i o done x Hn Hx|skip]; cbn [g_hist]; intros a n bc' H.
  - apply in_app_iff in H as [H|[H|[]]]; [eauto|discriminate].
  - apply in_app_iff in H as [H|H]; [eauto|]. inversion Hq; subst; cbn in H; try tauto; destruct H as [H|[]]; injection H as <- E.
    + exfalso. match goal with H : forall n bc, ?x <> OutSaved n bc |- _ => eapply H; eauto end.
    + pose proof (S _ _ Hn) as Hs. cbn in Hs. destruct Hs as (ex & s & e & evs & cn & -> & _ & F).
      exists ex, s, (e :: evs), cn, mine. split; [apply in_app_iff; left; eapply t_call; eauto|]. split; auto.
      destruct (notify j mine) as [l [|]]; cbn in E; [|discriminate]. now injection E as _ <-.
  - eauto.
  - apply in_app_iff in H as [H|H]; [eauto|]. exfalso. destruct Hp as [[_ ->]|[_ ->]]; [destruct H|]. destruct H as [H|[]]. discriminate.
  - apply in_app_iff in H as [H|[H|[]]]; [eauto|]. exfalso. injection H as _ H. destruct Hx; congruence.
  - apply in_app_iff in H as [H|H]; [eauto|]. exfalso. apply crash_acts_in in H as (m & c & _ & E & _). discriminate.
Qed.
Lemma acked_start : Acked pg_start.
Proof. split; [apply told_start| |cbn; tauto]. intros i c H. destruct i; discriminate. Qed.

(** ** Rows leave only through deletes of their stream *)
Lemma row_gone k lb k' r : Hunted j k -> Told k -> gcase k lb k' -> In r (g_rows k) -> ~ In r (g_rows k') ->
  exists i ex cn, In (Inv i (OpDelete ex (r_stream r) cn)) (g_hist k) /\
    (In (Ret i OutDeleted) (g_hist k') \/ In (Ret i (OutFailed EDatabase)) (g_hist k')).
Proof.
  intros [HS HN HU] HT C Hr Hr'.
  destruct C as [o|lb i o p p' lk h bc Hn Hq|lb i o r1 todo mine Hn|lb i o mine p' h Hn Hp|lb i o done x Hn Hx|skip]; cbn [g_rows g_hist] in *; try tauto.
  - exfalso. apply Hr'. apply in_app_iff. auto.
  - pose proof (HS _ _ Hn) as Hi. cbn in Hi. destruct Hi as (s' & ex & cn & Eo). cbn in Eo. subst o.
    assert (Hg : In (r_gsn r) done).
    { destruct (existsb (N.eqb (r_gsn r)) done) eqn:E; [now apply existsb_eqb in E|]. exfalso. apply Hr'. unfold removed_rows. apply filter_In. now rewrite E. }
    destruct (HU _ _ _ _ _ _ Hn (r_gsn r) Hg) as [_ A]. rewrite (A r); auto; [|apply in_app_iff; auto].
    exists i, ex, cn. split; [eapply t_call; eauto|]. destruct Hx as [->| ->]; [left|right]; apply in_app_iff; right; now left.
Qed.

(** A delete that commits while kept apart removed exactly the stream. *)
Lemma deleted_exactly s k lb k' i ex cn : Kept0 s k -> gcase k lb k' -> In (Inv i (OpDelete ex s cn)) (g_hist k) ->
  In (Ret i OutDeleted) (g_hist k') -> ~ In (Ret i OutDeleted) (g_hist k) ->
  N.of_nat (length (rows_of s (g_rows k))) = ex /\ g_rows k' = filter (fun r => negb (String.eqb (r_stream r) s)) (g_rows k).
Proof.
  intros [[[HS HN HU] HL] ST HT] C HI HR HR'.
  destruct C as [o|lb a o p p' lk h bc Hn Hq|lb a o r1 todo mine Hn|lb a o mine p' h Hn Hp|lb a o done x Hn Hx|skip]; cbn [g_rows g_hist] in *.
  - exfalso. apply in_app_iff in HR as [?|[?|[]]]; [tauto|discriminate].
  - exfalso. apply in_app_iff in HR as [?|HR]; [tauto|]. inversion Hq; subst; cbn in HR; try tauto; destruct HR as [HR|[]]; injection HR as _ E; [congruence|].
    destruct (snd _); discriminate.
  - tauto.
  - exfalso. apply in_app_iff in HR as [?|HR]; [tauto|]. destruct Hp as [[_ ->]|[_ ->]]; [destruct HR|]. destruct HR as [HR|[]]. discriminate.
  - apply in_app_iff in HR as [?|[HR|[]]]; [tauto|]. injection HR as -> _.
    destruct (t_inv _ HT _ _ HI) as (q & Q). rewrite Hn in Q. injection Q as -> _. split.
    + eapply (st_len _ _ ST); eauto.
    + unfold removed_rows. apply filter_ext_in. intros r Hr. f_equal. apply Bool.eq_iff_eq_true. rewrite existsb_eqb. split.
      * intros Hg. apply String.eqb_eq. destruct (HU _ _ _ _ _ _ Hn (r_gsn r) Hg) as [_ A]. apply A; auto. apply in_app_iff. auto.
      * intros Es. apply String.eqb_eq in Es. apply (st_del _ _ ST _ _ _ _ _ Hn). apply rows_of_in. auto.
  - exfalso. apply in_app_iff in HR as [?|HR]; [tauto|]. apply crash_acts_in in HR as (m & c & _ & E & _). discriminate.
Qed.

(** ** Without deletes the table only grows *)
Lemma rows_grow ls : forall k k', Shape j k -> Told k -> grun k ls = Some k' -> (forall s, never_deleted s (g_hist k')) ->
  exists new, g_rows k' = g_rows k ++ new.
Proof.
  induction ls as [|lb ls IH]; intros k k' HS HT E Hd; cbn in E; [injection E as <-; exists []; now rewrite app_nil_r|].
  destruct (gstep k lb) as [k1|] eqn:E1; [|discriminate]. pose proof (step_cases _ _ _ _ _ _ E1) as C.
  destruct (IH k1 k') as (new & En); auto; [eapply shape_step; eauto|eapply told_step; eauto|].
  assert (H1 : exists n1, g_rows k1 = g_rows k ++ n1); [|destruct H1 as (n1 & E2); exists (n1 ++ new); now rewrite En, E2, app_assoc].
  assert (Hh : forall a, In a (g_hist k) -> In a (g_hist k')).
  { intros a Ha. clear -E E1 Ha. assert (In a (g_hist k1)) by (destruct (hist_grows _ _ _ _ _ (step_cases _ _ _ _ _ _ E1)) as (h & ->); apply in_app_iff; auto). clear E1 Ha.
    revert k1 E H. induction ls as [|lb0 ls IHl]; intros k1 E H; cbn in E; [now injection E as <-|]. destruct (gstep k1 lb0) as [k2|] eqn:E2; [|discriminate].
    apply (IHl k2); auto. destruct (hist_grows _ _ _ _ _ (step_cases _ _ _ _ _ _ E2)) as (h & ->). apply in_app_iff. auto. }
  destruct C as [o|lb a o p p' lk h bc Hn Hq|lb a o r1 todo mine Hn|lb a o mine p' h Hn Hp|lb a o done x Hn Hx|skip]; cbn [g_rows] in *; try (exists []; now rewrite app_nil_r); eauto.
  exfalso. pose proof (HS _ _ Hn) as Hi. cbn in Hi. destruct Hi as (s & ex & cn & Eo). cbn in Eo. subst o. apply (Hd s ex cn). eapply made_inv. apply Hh. eapply t_call; eauto.
Qed.

(** ** Reads with an undecodable row *)
Lemma bad_hides rows r : In r rows -> r_meta r <> "null" -> exists l, read_rows j (order_by_gsn rows) = map RRec l ++ [RErr EDeserialize]
  /\ (forall x, In x l -> r_gsn x <= r_gsn r /\ exists row, In row rows /\ decode_row j row = Some x).
Proof.
  intros Hr Hm. pose proof (order_sorted rows) as Hs. pose proof (order_perm rows) as Hp.
  assert (Hr' : In r (order_by_gsn rows)) by (apply Permutation_in with rows; auto; now apply Permutation_sym).
  destruct (first_bad j (order_by_gsn rows)) as [H|(l & b & l' & E & Hb & Hg)]; [exfalso; eapply H; eauto; now apply decode_meta|].
  rewrite E in *. destruct (read_rows_bad j l b l' Hb Hg) as (out & Eo & F). exists out. split; auto.
  intros x Hx. assert (Hrow : exists row, In row l /\ decode_row j row = Some x).
  { clear -F Hx. induction F; [destruct Hx|]. destruct Hx as [->|Hx]; [exists x0; split; auto; now left|]. destruct (IHF Hx) as (row & H1 & H2). exists row. split; auto. now right. }
  destruct Hrow as (row & Hi & Hd). split; [|exists row; split; auto; apply Permutation_in with (l ++ b :: l'); auto; apply in_app_iff; auto].
  apply decode_gsn in Hd as (-> & _). apply in_app_iff in Hr' as [Hr'|Hr'].
  - exfalso. apply (Hg r Hr'). now apply decode_meta.
  - clear -Hs Hi Hr'. induction l as [|a l IH]; [destruct Hi|]. cbn in Hs. inversion Hs; subst. destruct Hi as [->|Hi]; [|auto].
    rewrite Forall_forall in H2. apply H2. apply in_app_iff. auto.
Qed.

(** ** Order of acknowledgements *)
Definition held (c : pgcall) : list record := match pg_pc c with PInsert _ m => m | PSaved m => m | _ => [] end.
Record Timely (k : pgconf) : Prop := {
  ti_told : Told k;
  ti_bound : forall i c r, nth_error (g_calls k) i = Some c -> In r (held c) -> r_gsn r <= g_seq k;
  ti_ret : forall i n bc r, In (Ret i (OutSaved n bc)) (g_hist k) -> In r bc -> r_gsn r <= g_seq k;
  ti_held : forall a n bc b o c x y, before (Ret a (OutSaved n bc)) (Inv b o) (g_hist k) -> nth_error (g_calls k) b = Some c ->
     In x bc -> In y (held c) -> r_gsn x < r_gsn y;
  ti_done : forall a n bc b o n' bc' x y, before (Ret a (OutSaved n bc)) (Inv b o) (g_hist k) -> In (Ret b (OutSaved n' bc')) (g_hist k) ->
     In x bc -> In y bc' -> r_gsn x < r_gsn y
}.

Lemma before_in {A} (a b : A) l : before a b l -> In a l /\ In b l.
Proof. intros (l1 & l2 & l3 & ->). split; apply in_app_iff; right; [now left|]. right. apply in_app_iff. right. now left. Qed.
Lemma before_noinv a i o h h' : (forall i' o', ~ In (Inv i' o') h') -> before a (Inv i o) (h ++ h') -> before a (Inv i o) h.
Proof.
  induction h' as [|x h' IH] using rev_ind; intros Hn Hb; [now rewrite app_nil_r in Hb|]. rewrite app_assoc in Hb.
  apply before_snoc in Hb as [Hb|[E _]].
  - apply IH; auto. intros i' o' H. apply (Hn i' o'). apply in_app_iff. auto.
  - exfalso. apply (Hn i o). apply in_app_iff. right. left. congruence.
Qed.
Lemma notify_gsn rows x : In x (fst (notify j rows)) -> exists r, In r rows /\ r_gsn x = r_gsn r.
Proof.
  induction rows as [|r rows IH]; cbn; [tauto|]. destruct (decode_row j r) as [y|] eqn:E; [|cbn; tauto].
  destruct (notify j rows) as [l ok]. cbn in *. intros [->|H]; [exists r; split; auto; now apply decode_gsn in E|]. destruct (IH H) as (r' & H1 & H2). eauto.
Qed.

(** A step of one call that neither numbers a row nor answers a save. *)
Lemma timely_quiet k i o p p' rows sq lk h bc : Timely k -> Told (mk_pg rows sq lk (upd i (mk_pgcall o p') (g_calls k)) (g_hist k ++ h) bc) ->
  nth_error (g_calls k) i = Some (mk_pgcall o p) -> g_seq k <= sq ->
  (forall r, In r (held (mk_pgcall o p')) -> In r (held (mk_pgcall o p)) \/ g_seq k < r_gsn r /\ r_gsn r <= sq) ->
  (forall i' o', ~ In (Inv i' o') h) ->
  (forall i' n bc', In (Ret i' (OutSaved n bc')) h -> i' = i /\ forall x, In x bc' -> exists r, In r (held (mk_pgcall o p)) /\ r_gsn x = r_gsn r) ->
  Timely (mk_pg rows sq lk (upd i (mk_pgcall o p') (g_calls k)) (g_hist k ++ h) bc).
Proof.
  intros [T1 T2 T3 T4 T5] T' Hn Hsq Hh Hi Hr. split; auto; cbn [g_calls g_seq g_hist].
  - intros a c r Ha Hc. rewrite (nth_upd _ _ _ _ _ Hn) in Ha. destruct (Nat.eqb_spec a i) as [->|N].
    + injection Ha as <-. destruct (Hh _ Hc) as [H|H]; [|tauto]. specialize (T2 _ _ _ Hn H). lia.
    + specialize (T2 _ _ _ Ha Hc). lia.
  - intros a n bc' r H Hb. apply in_app_iff in H as [H|H]; [specialize (T3 _ _ _ _ H Hb); lia|].
    destruct (Hr _ _ _ H) as (-> & Hx). destruct (Hx _ Hb) as (r' & H1 & ->). specialize (T2 _ _ _ Hn H1). lia.
  - intros a n bc' b ob c x y HB Hc Hx Hy. apply before_noinv in HB; auto. rewrite (nth_upd _ _ _ _ _ Hn) in Hc. destruct (Nat.eqb_spec b i) as [->|N].
    + injection Hc as <-. destruct (Hh _ Hy) as [H|H]; [eapply T4; eauto|]. pose proof (before_in _ _ _ HB) as [HR _]. specialize (T3 _ _ _ _ HR Hx). lia.
    + eapply T4; eauto.
  - intros a n bc' b ob n' bc'' x y HB HR Hx Hy. apply before_noinv in HB; auto. apply in_app_iff in HR as [HR|HR]; [eapply T5; eauto|].
    destruct (Hr _ _ _ HR) as (-> & Hx'). destruct (Hx' _ Hy) as (r' & H1 & ->). eapply T4; eauto.
Qed.

Lemma held_qm k i o p p' lk h bc : qm j key k i o p p' lk h bc -> held (mk_pgcall o p') = [].
Proof. destruct 1; reflexivity. Qed.
Lemma qm_ret k i o p p' lk h bc : qm j key k i o p p' lk h bc -> forall i' n bc', In (Ret i' (OutSaved n bc')) h ->
  i' = i /\ forall x, In x bc' -> exists r, In r (held (mk_pgcall o p)) /\ r_gsn x = r_gsn r.
Proof.
  intros Q i' n bc' H. destruct Q; cbn in H; try tauto; destruct H as [H|[]]; injection H as <- E.
  - exfalso. match goal with H : forall n bc, ?x <> OutSaved n bc |- _ => eapply H; eauto end.
  - split; auto. intros y Hy. cbn. apply notify_gsn. destruct (notify j mine) as [l [|]]; cbn in *; [|discriminate]. now injection E as _ ->.
Qed.

Lemma timely_step k lb k' : Timely k -> gcase k lb k' -> Timely k'.
Proof.
  intros T C. pose proof (told_step _ _ _ _ _ (ti_told _ T) C) as T'.
  destruct C as [o|lb i o p p' lk h bc Hn Hq|lb i o r todo mine Hn|lb i o mine p' h Hn Hp|lb i o done x Hn Hx|skip].
  - destruct T as [T1 T2 T3 T4 T5]. split; auto; cbn [g_calls g_seq g_hist].
    + intros i c r H Hr. apply nth_app_new in H as [H|[_ ->]]; [eauto|destruct Hr].
    + intros i n bc r H. apply in_app_iff in H as [H|[H|[]]]; [eauto|discriminate].
    + intros a n bc b ob c x y HB Hc Hx Hy. apply nth_app_new in Hc as [Hc|[_ ->]]; [|destruct Hy]. apply before_snoc in HB as [HB|[E _]]; [eauto|].
      injection E as -> _. exfalso. assert (length (g_calls k) < length (g_calls k))%nat; [|lia]. apply nth_error_Some. congruence.
    + intros a n bc b ob n' bc' x y HB HR Hx Hy. apply in_app_iff in HR as [HR|[HR|[]]]; [|discriminate]. apply before_snoc in HB as [HB|[E _]]; [eauto|].
      injection E as -> _. exfalso. destruct (t_ret _ T1 _ _ HR) as (oo & bb & Hb). assert (length (g_calls k) < length (g_calls k))%nat; [|lia]. apply nth_error_Some. congruence.
  - eapply timely_quiet; [exact T|exact T'|exact Hn|reflexivity| | |].
    + intros r Hr. rewrite (held_qm _ _ _ _ _ _ _ _ Hq) in Hr. destruct Hr.
    + eapply qm_hist; eauto.
    + eapply qm_ret; eauto.
  - rewrite <- (app_nil_r (g_hist k)). rewrite <- (app_nil_r (g_hist k)) in T'. cbn [g_hist] in T'. eapply timely_quiet; eauto; [lia| |]; cbn; try tauto.
    intros r' H. apply in_app_iff in H as [H|[<-|[]]]; auto. right. cbn. lia.
  - eapply timely_quiet; [exact T|exact T'|exact Hn|reflexivity| | |].
    + intros r Hr. left. destruct Hp as [[-> _]|[-> _]]; [exact Hr|destruct Hr].
    + intros i' o' H. destruct Hp as [[_ ->]|[_ ->]]; [destruct H|]. destruct H as [H|[]]. discriminate.
    + intros i' n bc' H. destruct Hp as [[_ ->]|[_ ->]]; [destruct H|]. destruct H as [H|[]]. discriminate.
  - eapply timely_quiet; [exact T|exact T'|exact Hn|reflexivity| | |].
    + intros r [].
    + intros i' o' [H|[]]. discriminate.
    + intros i' n bc' [H|[]]. injection H as _ E. destruct Hx; congruence.
  - destruct T as [T1 T2 T3 T4 T5].
    assert (Hc : forall i c r, nth_error (map crash_call (g_calls k)) i = Some c -> In r (held c) -> nth_error (g_calls k) i = Some c).
    { intros i c r H Hr. rewrite nth_error_map in H. destruct (nth_error (g_calls k) i) as [c0|] eqn:E0; [|discriminate]. cbn in H. injection H as H.
      destruct (crash_call_cases c0) as [[E1 E2]|E1]; rewrite E1 in H; [congruence|]. subst c. destruct Hr. }
    assert (Hi : forall i' o', ~ In (Inv i' o') (crash_acts 0 (g_calls k))) by (intros i' o' H; apply crash_acts_in in H as (m & c & _ & E & _); discriminate).
    assert (Hr : forall i' n bc', ~ In (Ret i' (OutSaved n bc')) (crash_acts 0 (g_calls k))) by (intros i' n bc' H; apply crash_acts_in in H as (m & c & _ & E & _); discriminate).
    split; auto; cbn [g_calls g_seq g_hist].
    + intros i c r H H'. specialize (T2 i c r). specialize (Hc _ _ _ H H'). specialize (T2 Hc H'). lia.
    + intros i n bc r H H'. apply in_app_iff in H as [H|H]; [specialize (T3 _ _ _ _ H H'); lia|]. destruct (Hr _ _ _ H).
    + intros a n bc b o c x y HB H Hx Hy. apply before_noinv in HB; auto. eapply T4; eauto.
    + intros a n bc b o n' bc' x y HB H Hx Hy. apply before_noinv in HB; auto. apply in_app_iff in H as [H|H]; [eapply T5; eauto|]. destruct (Hr _ _ _ H).
Qed.
Lemma timely_start : Timely pg_start.
Proof.
  split; [apply told_start|..]; cbn; try tauto.
  - intros i c r H. destruct i; discriminate.
  - intros a n bc b o c x y (l1 & l2 & l3 & E). destruct l1; discriminate.
Qed.

(** ** Deciding the side conditions on concrete runs *)
Definition delb (s : string) (c : pgcall) : bool :=
  match pg_op c, pg_pc c with
  | OpDelete _ s' _, PDelGo | OpDelete _ s' _, PDeleting _ _ => String.eqb s' s
  | _, _ => false
  end.
Definition savb (s : string) (c : pgcall) : bool :=
  match pg_op c, pg_pc c with OpSave _ s' _ _, PInsert _ _ => String.eqb s' s | _, _ => false end.
Definition apartb (s : string) (k : pgconf) : bool :=
  negb (existsb (delb s) (g_calls k)) || Nat.leb (length (filter (fun c => delb s c || savb s c) (g_calls k))) 1.
Definition oneb (k : pgconf) : bool :=
  Nat.leb (length (filter (fun c => match mine_of c with [] => false | _ => true end) (g_calls k))) 1.
Fixpoint alwaysb (P : pgconf -> bool) (k : pgconf) (ls : list plabel) : bool :=
  P k && match ls with
         | [] => true
         | lb :: rest => match gstep k lb with Some k' => alwaysb P k' rest | None => true end
         end.

Lemma filter_one {A} (f : A -> bool) l : (length (filter f l) <= 1)%nat -> forall i a x y, nth_error l i = Some x -> nth_error l a = Some y ->
  f x = true -> f y = true -> i = a.
Proof.
  induction l as [|z l IH]; intros H [|i] [|a] x y Hx Hy Fx Fy; cbn in *; try discriminate; auto.
  - injection Hx as ->. rewrite Fx in H. cbn in H. exfalso. assert (In y (filter f l)) by (apply filter_In; split; auto; eapply nth_error_In; eauto).
    destruct (filter f l); [destruct H0|cbn in H; lia].
  - injection Hy as ->. rewrite Fy in H. cbn in H. exfalso. assert (In x (filter f l)) by (apply filter_In; split; auto; eapply nth_error_In; eauto).
    destruct (filter f l); [destruct H0|cbn in H; lia].
  - f_equal. eapply IH; eauto. destruct (f z); cbn in H; lia.
Qed.
Lemma delb_true s c : deleting_past_check s c -> delb s c = true.
Proof. intros ((ex & cn & E) & [E'|(t & d & E')]); unfold delb; rewrite E, E'; apply String.eqb_refl. Qed.
Lemma savb_true s c : saving_past_check s c -> savb s c = true.
Proof. intros ((ex & evs & cn & E) & (t & m & E')); unfold savb; rewrite E, E'; apply String.eqb_refl. Qed.
Lemma apartb_ok s k : apartb s k = true -> apart s k.
Proof.
  unfold apartb. rewrite orb_true_iff, negb_true_iff, Nat.leb_le. intros H i a c c' Hi Ha Hd Hsd. apply delb_true in Hd. destruct H as [H|H].
  - exfalso. rewrite <- not_true_iff_false in H. apply H. apply existsb_exists. exists c. split; auto. eapply nth_error_In; eauto.
  - eapply filter_one; eauto; cbn; [now rewrite Hd|]. apply orb_true_iff. destruct Hsd as [Hs|Hs]; [right; now apply savb_true|left; now apply delb_true].
Qed.
Lemma oneb_ok k : oneb k = true -> one_inserter k.
Proof.
  unfold oneb. rewrite Nat.leb_le. intros H i a c c' Hi Ha Hc Hc'. eapply filter_one; eauto; cbn; unfold inserting in *; first [destruct (mine_of c); congruence | destruct (mine_of c'); congruence].
Qed.
Lemma alwaysb_ok (P : pgconf -> Prop) Pb ls : (forall k, Pb k = true -> P k) -> forall k, alwaysb Pb k ls = true -> always j key limit P k ls.
Proof.
  intros H. induction ls as [|lb ls IH]; intros k; cbn; rewrite andb_true_iff; intros [H1 H2]; split; auto.
  destruct (gstep k lb); auto.
Qed.

(** A quiet store after [n] refused deletes. *)
Definition refused : op := OpDelete 1 "x" None.
Fixpoint refusals (n : nat) : list plabel :=
  match n with O => [] | S n' => refusals n' ++ [GInvoke refused; GStep n'; GStep n'] end.
Definition refused_state (n : nat) : pgconf :=
  mk_pg [] 0 (fun _ => None) (repeat (mk_pgcall refused (PDone true)) n)
    (flat_map (fun i => [Inv i refused; Ret i (OutFailed EStreamNotFound)]) (seq 0 n)) [].
Lemma run_app a : forall k b, grun k (a ++ b) = match grun k a with Some k' => grun k' b | None => None end.
Proof. induction a as [|x a IH]; intros k b; cbn; auto. destruct (gstep k x); auto. Qed.
Lemma end_upd {A} (l : list A) x y n : length l = n -> upd n x (l ++ [y]) = l ++ [x].
Proof. intros <-. induction l as [|a l IH]; cbn; auto. now rewrite IH. Qed.
Lemma end_nth {A} (l : list A) x n : length l = n -> nth_error (l ++ [x]) n = Some x.
Proof. intros <-. rewrite nth_error_app2, Nat.sub_diag; auto. Qed.
Lemma repeat_snoc {A} (x : A) n : repeat x n ++ [x] = repeat x (S n).
Proof. induction n; cbn; auto. now rewrite IHn. Qed.
Lemma refusals_run n : (n <= limit)%nat -> grun pg_start (refusals n) = Some (refused_state n).
Proof.
  induction n as [|n IH]; intros Hn; [reflexivity|]. cbn [refusals]. rewrite run_app, IH by lia.
  assert (Hl : length (repeat (mk_pgcall refused (PDone true)) n) = n) by apply repeat_length.
  unfold refused_state at 1. cbn [Postgres.grun]. unfold Postgres.gstep. cbn [g_calls g_rows g_seq g_locks g_hist g_bcast]. rewrite end_nth by auto.
  cbn [pg_op pg_pc pg_step]. assert (Hu : Nat.leb limit (in_use (mk_pg [] 0 (fun _ => None) (repeat (mk_pgcall refused (PDone true)) n ++ [mk_pgcall refused PNew])
    (flat_map (fun i => [Inv i refused; Ret i (OutFailed EStreamNotFound)]) (seq 0 n) ++ [Inv (length (repeat (mk_pgcall refused (PDone true)) n)) refused]) [])) = false).
  { apply Nat.leb_gt. unfold in_use. cbn [g_calls]. rewrite filter_app. cbn. rewrite app_nil_r.
    assert (E : length (filter uses_connection (repeat (mk_pgcall refused (PDone true)) n)) = n) by (clear; induction n; cbn; auto). lia. }
  rewrite Hu. cbn [refused set_call g_calls g_rows g_seq g_locks g_hist g_bcast]. unfold set_call. cbn [g_calls g_rows g_seq g_locks g_hist g_bcast].
  rewrite end_upd by auto. rewrite end_nth by auto. cbn [pg_op pg_pc pg_step g_rows max_ssn N.eqb]. unfold reply. cbn [g_calls g_rows g_seq g_locks g_hist g_bcast].
  rewrite end_upd by auto. unfold refused_state. rewrite seq_S, flat_map_app, repeat_snoc, Hl. cbn [flat_map Nat.add]. rewrite app_nil_r, <- app_assoc. reflexivity.
Qed.
Lemma refused_told n : (n <= limit)%nat -> Told (refused_state n).
Proof. intros H. eapply (run_inv j key limit Told); [|apply told_start|apply refusals_run; auto]. intros. eapply told_step; eauto. Qed.
Lemma refused_starved : Starved limit limit [] (refused_state limit).
Proof.
  assert (Hn : forall i o p, nth_error (repeat (mk_pgcall refused (PDone true)) limit) i = Some (mk_pgcall o p) -> (i < limit)%nat /\ p = PDone true).
  { intros i o p H. assert (Hi : (i < limit)%nat) by (rewrite <- (repeat_length (mk_pgcall refused (PDone true)) limit); apply nth_error_Some; congruence).
    split; auto. apply nth_error_In, repeat_spec in H. congruence. }
  split.
  - now apply refused_told.
  - unfold leaks. cbn. assert (E : length (filter is_leaked (repeat (mk_pgcall refused (PDone true)) limit)) = limit) by (clear; induction limit; cbn; auto). lia.
  - reflexivity.
  - cbn. now rewrite repeat_length.
  - intros i o p _ H. apply Hn in H as [_ ->]. eauto.
  - intros i o p Hi H. apply Hn in H as [H _]. lia.
  - intros i o x Hi H. destruct (t_inv _ (refused_told limit (le_n _)) _ _ H) as (p & Hp). apply Hn in Hp as [Hp _]. lia.
Qed.

(** ** What leaks a connection *)
Record Leaky (k : pgconf) : Prop := {
  lk_shape : Shape j k;
  lk_told : Told k;
  lk_del : forall i o, nth_error (g_calls k) i = Some (mk_pgcall o (PDone true)) -> exists ex s cn e, o = OpDelete ex s cn /\ In (Ret i (OutFailed e)) (g_hist k)
}.
Lemma leaky_step k lb k' : Leaky k -> gstep k lb = Some k' -> Leaky k'.
Proof.
  intros [Sh T H] E. pose proof (shape_step _ _ _ _ _ Sh (step_cases _ _ _ _ _ _ E)) as Sh'. pose proof (told_step _ _ _ _ _ T (step_cases _ _ _ _ _ _ E)) as T'. split; auto.
  assert (Grow : exists h, g_hist k' = g_hist k ++ h) by (eapply hist_grows; eapply step_cases; eauto). destruct Grow as (h & Eh).
  assert (Old : forall i o, nth_error (g_calls k) i = Some (mk_pgcall o (PDone true)) -> exists ex s cn e, o = OpDelete ex s cn /\ In (Ret i (OutFailed e)) (g_hist k')).
  { intros i o Hi. destruct (H _ _ Hi) as (ex & s & cn & e & E1 & E2). exists ex, s, cn, e. split; auto. rewrite Eh. apply in_app_iff. auto. }
  assert (Upd : forall i0 o0 p p', nth_error (g_calls k) i0 = Some (mk_pgcall o0 p) -> p' <> PDone true ->
    forall i o, nth_error (upd i0 (mk_pgcall o0 p') (g_calls k)) i = Some (mk_pgcall o (PDone true)) -> nth_error (g_calls k) i = Some (mk_pgcall o (PDone true))).
  { intros i0 o0 p p' Hn Hp i o Hi. rewrite (nth_upd _ _ _ _ _ Hn) in Hi. destruct (Nat.eqb_spec i i0); [congruence|auto]. }
  destruct lb as [o0|i0|i0|i0|i0|sk]; cbn [Postgres.gstep] in E; intros i o Hi.
  - injection E as <-. cbn [g_calls] in Hi. apply nth_app_new in Hi as [Hi|[_ Hi]]; [eauto|discriminate].
  - destruct (nth_error (g_calls k) i0) as [[o0 p]|] eqn:Hn; [|discriminate]. cbn [pg_op pg_pc] in E. unfold pg_step in E.
    repeat match type of E with context [match ?x with _ => _ end] => destruct x eqn:?; try discriminate end; injection E as <-;
      unfold reply, broadcast, set_call, set_rows, set_seq, take_lock, free_locks in *; cbn [g_calls g_hist] in *;
      try (apply Old; eapply Upd; eauto; discriminate).
    + rewrite (nth_upd _ _ _ _ _ Hn) in Hi. destruct (Nat.eqb_spec i i0) as [->|]; [|eauto]. injection Hi as <-. eexists _, _, _, _. split; [reflexivity|]. apply in_app_iff. right. now left.
    + rewrite (nth_upd _ _ _ _ _ Hn) in Hi. destruct (Nat.eqb_spec i i0) as [->|]; [|eauto]. injection Hi as <-. eexists _, _, _, _. split; [reflexivity|]. apply in_app_iff. right. now left.
  - destruct (nth_error (g_calls k) i0) as [[o0 p]|] eqn:Hn; [|discriminate]. cbn [pg_op pg_pc] in E. unfold pg_fail in E.
    destruct p; try discriminate; injection E as <-; unfold reply, free_locks in *; cbn [g_calls g_hist] in *; try (apply Old; eapply Upd; eauto; discriminate).
    rewrite (nth_upd _ _ _ _ _ Hn) in Hi. destruct (Nat.eqb_spec i i0) as [->|]; [|eauto]. injection Hi as <-.
    pose proof (Sh _ _ Hn) as Hs. cbn in Hs. destruct Hs as (s & ex & cn & Eo). cbn in Eo. subst o0. exists ex, s, cn, EDatabase. split; auto. apply in_app_iff. right. now left.
  - destruct (nth_error (g_calls k) i0) as [[o0 p]|] eqn:Hn; [|discriminate]. cbn [pg_op pg_pc] in E. unfold pg_lost in E.
    destruct p as [| | |[|] mine| | | |[|] done|]; try discriminate; injection E as <-; unfold reply, free_locks, set_rows in *; cbn [g_calls g_hist] in *; apply Old; eapply Upd; eauto; discriminate.
  - destruct (nth_error (g_calls k) i0) as [[o0 p]|] eqn:Hn; [|discriminate]. destruct p; try discriminate. destruct leaked; [|discriminate]. injection E as <-.
    unfold set_call in *; cbn [g_calls] in *. apply Old. eapply Upd; eauto. discriminate.
  - injection E as <-. cbn [g_calls] in Hi. rewrite nth_error_map in Hi. destruct (nth_error (g_calls k) i) as [c0|]; [|discriminate]. cbn in Hi. injection Hi as Hi.
    destruct (crash_call_cases c0) as [[E1 [E2|(m & E2)]]|E1]; rewrite E1 in Hi; [subst c0; discriminate..|discriminate].
Qed.

End Facts.
