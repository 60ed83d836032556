(** C111: a number learned of a stream stays right until the stream is changed. *)
From Coq Require Import PeanoNat.
From Verif Require Import Base LogSpec StoreSpec ToyCodec InMemory InMemoryProofs LevelDB LevelDBSpec LogProofs Properties_InMemory Properties_LevelDB
  Locks LocksProofs Postgres PostgresSpec PostgresSeq Properties_Postgres EventStore EventStoreProofs EventStoreMore Properties_Cancel Properties_EventStore Properties_CancelEs Properties_Retry.
Open Scope string_scope.
Open Scope list_scope.
Open Scope N_scope.

(** ** What is claimed *)

(** The answer [x] of the call [o] tells that the stream [s] has [n] events. *)
Inductive tells (s : string) (n : N) : op -> out -> Prop :=
| tells_saved ex evs cn recs : tells s n (OpSave ex s evs cn) (OutSaved n recs)
| tells_refused ex evs cn y : tells s n (OpSave ex s evs cn) (OutFailed (EUnexpectedSeq y n))
| tells_not_deleted ex cn y : tells s n (OpDelete ex s cn) (OutFailed (EUnexpectedSeq y n))
| tells_total cn : tells s n (OpTotal s cn) (OutTotal n).

(** The call [o] expects the number [n] of the stream [s]. *)
Inductive expects (s : string) (n : N) : op -> Prop :=
| expects_save evs cn : expects s n (OpSave (Some n) s evs cn)
| expects_delete cn : expects s n (OpDelete n s cn).

(** A call that changed the stream: a save or a delete of it that was confirmed. *)
Inductive changes (s : string) : op -> out -> Prop :=
| changes_save ex evs cn n recs : changes s (OpSave ex s evs cn) (OutSaved n recs)
| changes_delete ex cn : changes s (OpDelete ex s cn) OutDeleted.
Definition changed_in (s : string) (ops : list op) (answers : list out) : Prop :=
  exists o x, In (o, x) (combine ops answers) /\ changes s o x.

(** In a history with these answers, a conflict is told to somebody who expected a number
    learned earlier only if the stream was changed in between. *)
Definition stays_right (ops : list op) (answers : list out) : Prop :=
  forall before o between o' later ys y zs y' us s n p q,
    ops = before ++ o :: between ++ o' :: later -> answers = ys ++ y :: zs ++ y' :: us ->
    length ys = length before -> length zs = length between ->
    tells s n o y -> expects s n o' -> y' = OutFailed (EUnexpectedSeq p q) -> changed_in s between zs.

(** ** Proof, for anything whose steps have the effects of the log's *)
Lemma changes_dec s o x : changes s o x \/ ~ changes s o x.
Proof.
  destruct o as [ex t evs cn|ex t cn| | | |]; try (right; intros H; inversion H; fail);
    destruct x; try (right; intros H; inversion H; fail); (destruct (string_dec t s) as [->|Hn]; [left; constructor|right; intros H; inversion H; congruence]).
Qed.

Record effect (L : log) (o : op) (y : out) (L' : log) : Prop := mk_effect {
  ef_keeps : forall s, ~ changes s o y -> stream_length s L' = stream_length s L;
  ef_tells : forall s n, tells s n o y -> stream_length s L' = n;
  ef_right : forall s n p q, expects s n o -> y = OutFailed (EUnexpectedSeq p q) -> n <> stream_length s L
}.

Section Generic.
Variable St : Type.
Variable step : St -> op -> St * out.
Variable Rel : St -> log -> Prop.
Variable ok : op -> Prop.
Hypothesis Hstep : forall m L o, Rel m L -> ok o -> exists L', Rel (fst (step m o)) L' /\ effect L o (snd (step m o)) L'.

Lemma reach ops : forall m L, Rel m L -> Forall ok ops -> exists L', Rel (fst (run step m ops)) L'.
Proof.
  induction ops as [|o ops IH]; intros m L H F; cbn [run]; [eauto|]. pose proof (Forall_inv F) as Ho. apply Forall_inv_tail in F.
  destruct (Hstep m L o H Ho) as (L1 & H1 & _). destruct (step m o) as [m1 x]. cbn [fst] in H1.
  destruct (IH m1 L1 H1 F) as (L2 & H2). destruct (run step m1 ops). exists L2. exact H2.
Qed.
Lemma unchanged ops s : forall m L, Rel m L -> Forall ok ops ->
  changed_in s ops (snd (run step m ops)) \/ exists L', Rel (fst (run step m ops)) L' /\ stream_length s L' = stream_length s L.
Proof.
  induction ops as [|o ops IH]; intros m L H F; cbn [run]; [right; eauto|]. pose proof (Forall_inv F) as Ho. apply Forall_inv_tail in F.
  destruct (Hstep m L o H Ho) as (L1 & H1 & E1). destruct (step m o) as [m1 x]. cbn [fst snd] in *.
  destruct (IH m1 L1 H1 F) as [(o2 & x2 & Hi & Hc)|(L2 & H2 & E2)]; destruct (run step m1 ops) as [m2 xs]; cbn [fst snd] in *.
  - left. exists o2, x2. split; [now right|exact Hc].
  - destruct (changes_dec s o x) as [Hc|Hc]; [left; exists o, x; split; [now left|exact Hc]|].
    right. exists L2. split; [exact H2|]. rewrite E2. now apply (ef_keeps _ _ _ _ E1).
Qed.
Lemma split_answers {A} (a b c d : list A) : a ++ b = c ++ d -> length a = length c -> a = c /\ b = d.
Proof. revert c. induction a as [|x a IH]; intros [|y c] E L; try discriminate; [auto|]. injection E as -> E. destruct (IH c E) as [-> ->]; auto. Qed.
Lemma generic m L ops : Rel m L -> Forall ok ops -> stays_right ops (snd (run step m ops)).
Proof.
  intros H F before o between o' later ys y zs y' us s n p q -> E Ly Lz Ht He Hy.
  rewrite run_app in E. apply Forall_app in F as [F1 F2].
  pose proof (run_len step before m) as La. destruct (reach before m L H F1) as (L1 & H1).
  destruct (run step m before) as [m1 xs1]. cbn [fst snd run] in *.
  pose proof (Forall_inv F2) as Ho. apply Forall_inv_tail in F2. destruct (Hstep m1 L1 o H1 Ho) as (L2 & H2 & E2).
  destruct (step m1 o) as [m2 x2]. cbn [fst snd] in *. apply Forall_app in F2 as [F2 F3].
  rewrite run_app in E. pose proof (run_len step between m2) as Lb. pose proof (unchanged between s m2 L2 H2 F2) as U.
  destruct (run step m2 between) as [m3 xs3]. cbn [fst snd run] in *.
  destruct (step m3 o') as [m4 x4] eqn:E4. destruct (run step m4 later) as [m5 xs5]. cbn [fst snd] in *.
  apply split_answers in E as [-> E]; [|congruence]. injection E as -> E. apply split_answers in E as [-> E]; [|congruence]. injection E as -> _.
  destruct U as [U|(L3 & H3 & E3)]; [exact U|exfalso].
  destruct (Hstep m3 L3 o' H3 (Forall_inv F3)) as (L4 & _ & E5). rewrite E4 in E5. cbn [snd] in E5.
  apply (ef_right _ _ _ _ E5 s n p q He Hy). rewrite E3. symmetry. now apply (ef_tells _ _ _ _ E2).
Qed.
End Generic.

Lemma refusal_other c s t i cn : forall evs g k m p q, refusal c cn s t i g k m evs <> Some (EUnexpectedSeq p q).
Proof.
  induction evs as [|e evs IH]; intros g k m p q; cbn [refusal]; [discriminate|].
  destruct (negb _); [discriminate|]. destruct (negb _); [discriminate|]. destruct (done_at _ _); [discriminate|]. destruct (ser c _); [apply IH|discriminate].
Qed.
Lemma length_other s s' L : s' <> s -> stream_length s (remove_stream s' L) = stream_length s L.
Proof.
  intros H. unfold stream_length, of_stream, remove_stream. cbn. f_equal. f_equal. induction (l_recs L) as [|r l IH]; [reflexivity|]. cbn.
  unfold in_stream in *. destruct (String.eqb_spec (r_stream r) s') as [E|]; cbn.
  - destruct (String.eqb_spec (r_stream r) s); [congruence|exact IH].
  - destruct (String.eqb (r_stream r) s); cbn; congruence.
Qed.
Lemma conflict_number c L ex s evs cn y n : save_refused c L ex s evs cn = Some (EUnexpectedSeq y n) ->
  n = stream_length s L /\ ex = Some y /\ y <> n.
Proof.
  unfold save_refused. destruct evs as [|e evs]; [discriminate|]. destruct (done_at cn 0); [discriminate|].
  destruct ex as [x|]; [|intros H; exfalso; exact (refusal_other _ _ _ _ _ _ _ _ _ _ _ H)].
  destruct (N.eqb_spec x (stream_length s L)); [intros H; exfalso; exact (refusal_other _ _ _ _ _ _ _ _ _ _ _ H)|].
  intros [= <- <-]. auto.
Qed.
Lemma delete_number L ex s cn y n : delete_refused L ex s cn = Some (EUnexpectedSeq y n) -> n = stream_length s L /\ ex = y /\ y <> n.
Proof.
  unfold delete_refused. destruct (done_at cn 0); [discriminate|]. destruct (_ =? 0); [discriminate|].
  destruct (N.eqb_spec ex (stream_length s L)); [discriminate|]. intros [= <- <-]. auto.
Qed.
Lemma read_tells L o x s n : read_result L o = Some x -> tells s n o x -> n = stream_length s L.
Proof. intros H T. destruct T; cbn in H; try discriminate. destruct (done_at cn 0); congruence. Qed.

Lemma log_effect c L o x L' : log_step c L o x L' -> effect L o x L'.
Proof.
  intros H. destruct H as [L ex s evs cn E|L ex s evs cn e last E Hl|L ex s cn E|L ex s cn e E|L o x E]; constructor.
  - intros s' Hc. destruct (string_dec s s') as [<-|Hn]; [exfalso; apply Hc; constructor|].
    unfold stream_length. rewrite of_stream_append. destruct (String.eqb_spec s s'); [congruence|]. now rewrite app_nil_r.
  - intros s' n T. inversion T; subst. apply stream_length_append.
  - intros s' n p q _ X. discriminate.
  - intros s' _. reflexivity.
  - intros s' n T. inversion T; subst. destruct (conflict_number _ _ _ _ _ _ _ _ E) as [-> _]. reflexivity.
  - intros s' n p q X [= ->]. destruct (conflict_number _ _ _ _ _ _ _ _ E) as (-> & -> & Hne). inversion X; subst. exact Hne.
  - intros s' Hc. destruct (string_dec s s') as [<-|Hn]; [exfalso; apply Hc; constructor|]. now apply length_other.
  - intros s' n T. inversion T.
  - intros s' n p q _ X. discriminate.
  - intros s' _. reflexivity.
  - intros s' n T. inversion T; subst. destruct (delete_number _ _ _ _ _ _ E) as [-> _]. reflexivity.
  - intros s' n p q X [= ->]. destruct (delete_number _ _ _ _ _ _ E) as (-> & -> & Hne). inversion X; subst. exact Hne.
  - intros s' _. reflexivity.
  - intros s' n T. symmetry. eapply read_tells; eauto.
  - intros s' n p q X _. inversion X; subst; discriminate E.
Qed.
Lemma exec_effect c L o : effect L o (snd (log_exec c L o)) (fst (log_exec c L o)).
Proof.
  destruct o as [ex s evs cn|ex s cn|g|g ts|k s|s cn]; unfold log_exec.
  - destruct (save_refused c L ex s evs cn) as [e|] eqn:E; cbn [fst snd].
    + pose proof (LSaveRefused c L ex s evs cn e (l_last L) E (N.le_refl _)) as H. destruct L. exact (log_effect _ _ _ _ _ H).
    + exact (log_effect _ _ _ _ _ (LSaved c L ex s evs cn E)).
  - destruct (delete_refused L ex s cn) as [e|] eqn:E; cbn [fst snd].
    + exact (log_effect _ _ _ _ _ (LDeleteRefused c L ex s cn e E)).
    + exact (log_effect _ _ _ _ _ (LDeleted c L ex s cn E)).
  - exact (log_effect _ _ _ _ _ (LRead c L (OpEvents g) _ eq_refl)).
  - exact (log_effect _ _ _ _ _ (LRead c L (OpByTypes g ts) _ eq_refl)).
  - exact (log_effect _ _ _ _ _ (LRead c L (OpByStream k s) _ eq_refl)).
  - exact (log_effect _ _ _ _ _ (LRead c L (OpTotal s cn) _ eq_refl)).
Qed.
Lemma log_stays c ops : stays_right ops (snd (run (log_exec c) empty_log ops)).
Proof.
  apply (generic log (log_exec c) eq (fun _ => True)) with (L := empty_log); [|reflexivity|apply Forall_forall; auto].
  intros m L o <- _. eexists. split; [reflexivity|]. apply exec_effect.
Qed.

(** ** The stores *)
Lemma agreed_effect L o x y L' : effect L o x L' -> (x = OutFailed EStreamNotFound -> L' = L /\ forall ex s cn, o = OpDelete ex s cn -> stream_length s L = 0) ->
  agrees o x y -> effect L o y L'.
Proof.
  intros E Hn [<-|A]; [exact E|]. destruct o as [ex s evs cn|ex s cn| | | |]; try contradiction.
  destruct x as [|e| | | | |]; try contradiction. destruct e; try contradiction. destruct (Hn eq_refl) as [-> H0]. specialize (H0 _ _ _ eq_refl). subst y.
  constructor.
  - auto.
  - intros s' n T. destruct (ex =? 0); inversion T; subst; exact H0.
  - intros s' n p q X. destruct (N.eqb_spec ex 0); [discriminate|]. intros _. inversion X; subst. congruence.
Qed.

(** C111, in memory: any history of calls with batches of one aggregate. *)
Theorem C111_in_memory : forall c ops, codec_ok c -> Forall (plain_call c) ops -> stays_right ops (mem_outs c ops).
Proof.
  intros c ops Hc Hp. unfold mem_outs. apply (generic mem (mem_step c) (R c) (plain_call c)) with (L := empty_log); [|apply R_init|exact Hp].
  intros m L o HR Ho. destruct (InMemoryProofs.step_ok c Hc m L o HR Ho) as (x & S1 & S2 & S3). exists (log_after L o x). split; [exact S3|].
  apply (agreed_effect L o x); [exact (log_effect _ _ _ _ _ S1)| |exact S2].
  intros ->. pose proof (log_step_exec _ _ _ _ _ S1) as E. destruct o as [ex s evs cn|ex s cn| | | |s cn]; cbn in E; try discriminate.
  - exfalso. destruct (save_refused c L ex s evs cn) as [e|] eqn:E4; [|discriminate]. injection E as <-. unfold save_refused in E4.
    destruct evs as [|e evs]; [discriminate|]. destruct (done_at cn 0); [discriminate|].
    assert (K : forall evs t i g k m, refusal c cn s t i g k m evs <> Some EStreamNotFound).
    { clear. induction evs as [|e evs IH]; intros t i g k m; cbn [refusal]; [discriminate|]. destruct (negb _); [discriminate|].
      destruct (negb _); [discriminate|]. destruct (done_at _ _); [discriminate|]. destruct (ser c _); [apply IH|discriminate]. }
    destruct ex as [x|]; [destruct (_ =? _); [|discriminate]|]; exact (K _ _ _ _ _ _ E4).
  - split; [reflexivity|]. intros ? ? ? [= <- <- <-]. unfold delete_refused in E. destruct (done_at cn 0); [discriminate|].
    destruct (N.eqb_spec (stream_length s L) 0); [assumption|]. destruct (ex =? stream_length s L); discriminate.
  - destruct (done_at cn 0); discriminate.
Qed.
Print Assumptions C111_in_memory.

(** C111, LevelDB: while no delete was refused (afterwards nothing returns: C18). *)
Theorem C111_leveldb_partial : forall c ops, codec_ok c -> Forall clean_call ops -> events_in ops < two64 ->
  no_refused_delete ops (ldb_outs c ops) -> stays_right ops (ldb_outs c ops).
Proof. intros c ops Hc Hcl Hsm Hr. rewrite (C16_leveldb_answers_as_log_partial c ops Hc Hcl Hsm Hr). apply log_stays. Qed.
Print Assumptions C111_leveldb_partial.

(** ** PostgreSQL *)
Lemma agree_len ops : forall specs xs, all_pg_agree ops specs xs -> length specs = length ops /\ length xs = length ops.
Proof. induction ops as [|o ops IH]; intros [|x specs] [|y xs] H; cbn in H; try tauto; try (split; reflexivity). destruct H as [_ H]. destruct (IH _ _ H). cbn. auto. Qed.
Lemma agree_cut a : forall b specs xs1 xs2, all_pg_agree (a ++ b) specs (xs1 ++ xs2) -> length xs1 = length a ->
  exists s1 s2, specs = s1 ++ s2 /\ all_pg_agree a s1 xs1 /\ all_pg_agree b s2 xs2.
Proof.
  induction a as [|o a IH]; intros b specs [|y xs1] xs2 H L; try discriminate.
  - exists [], specs. cbn. auto.
  - destruct specs as [|x specs]; cbn in H; [contradiction|]. destruct H as [H1 H2]. destruct (IH b specs xs1 xs2 H2) as (s1 & s2 & -> & A & B); [auto|].
    exists (x :: s1), s2. cbn. auto.
Qed.
Lemma agree_changed s ops : forall specs xs, all_pg_agree ops specs xs -> changed_in s ops specs -> changed_in s ops xs.
Proof.
  induction ops as [|o ops IH]; intros [|x specs] [|y xs] H (o1 & x1 & Hi & Hc); cbn in H, Hi; try tauto. destruct H as [H1 H2]. destruct Hi as [E|Hi].
  - injection E as -> ->. exists o1, x1. split; [|exact Hc]. left. destruct H1 as [->|((? & ? & ->) & _)]; [reflexivity|inversion Hc].
  - destruct (IH specs xs H2) as (o2 & x2 & A & B); [exists o1, x1; auto|]. exists o2, x2. split; [now right|exact B].
Qed.

(** C111, PostgreSQL: calls one after the other, without metadata, not more of them than
    connections. *)
Theorem C111_postgres_partial : forall j key limit ops, json_ok j -> Forall (without_metadata j) ops -> (length ops <= limit)%nat ->
  exists xs k, one_by_one j key limit pg_start ops xs k /\ stays_right ops xs.
Proof.
  intros j key limit ops Hj HF Hl. destruct (C60_sequential_use_is_the_log_partial j key limit ops Hj HF Hl) as (xs & k & H1 & H2).
  exists xs, k. split; [exact H1|]. pose proof (log_stays (json_codec j) ops) as S.
  intros before o between o' later ys y zs y' us s n p q -> -> Ly Lz Ht He Hy.
  apply agree_cut in H2 as (s1 & s2 & E & A1 & A2); [|exact Ly]. destruct s2 as [|x s2]; cbn in A2; [contradiction|]. destruct A2 as [B1 A2].
  apply agree_cut in A2 as (s3 & s4 & -> & A3 & A4); [|exact Lz]. destruct s4 as [|x' s4]; cbn in A4; [contradiction|]. destruct A4 as [B2 _].
  destruct B1 as [->|((? & ? & ->) & _)]; [|inversion Ht]. destruct B2 as [->|((? & ? & ->) & _)]; [|inversion He].
  apply (agree_changed s between s3 zs A3).
  exact (S before o between o' later s1 y s3 y' s4 s n p q eq_refl E (proj1 (agree_len _ _ _ A1)) (proj1 (agree_len _ _ _ A3)) Ht He Hy).
Qed.
Print Assumptions C111_postgres_partial.

(** Non-vacuity: a conflict after a number was learned and the stream changed; and one
    that does not come although others wrote elsewhere. *)
Example C111_inhabited :
  let ops := [OpSave None "thing!x" [thing "a"] None; OpTotal "thing!x" None; OpSave None "other!y" [other "b"] None;
              OpSave (Some 1) "thing!x" [thing "c"] None; OpSave (Some 1) "thing!x" [thing "d"] None; OpDelete 2 "thing!x" None] in
  Forall (plain_call toy) ops
  /\ map (fun x => match x with OutSaved n _ => Some n | OutTotal n => Some n | OutFailed (EUnexpectedSeq _ n) => Some (100 + n) | _ => None end) (mem_outs toy ops)
     = [Some 1; Some 1; Some 1; Some 2; Some 102; None]
  /\ ldb_outs toy ops = mem_outs toy ops /\ no_refused_delete ops (ldb_outs toy ops)
  /\ tells "thing!x" 1 (OpTotal "thing!x" None) (OutTotal 1) /\ expects "thing!x" 1 (OpSave (Some 1) "thing!x" [thing "d"] None).
Proof.
  assert (S : forall ex s e, plain_call toy (OpSave ex s [e] None)).
  { intros ex s e. split; [intros a b [<-|[]] [<-|[]]; auto|]. split; [now left|]. left. exact toy_total. }
  split; [repeat apply Forall_cons; try apply S; try exact Logic.I; constructor|].
  split; [vm_compute; reflexivity|]. split; [vm_compute; reflexivity|]. split; [vm_compute; tauto|]. split; constructor.
Qed.

(** ** EventStoreDB *)
(** Refuted: who loses the race at the server is told 0 and, coming back with it at once,
    is refused although nothing happened in between. *)
Theorem C111_eventstore_refuted : exists ls k before,
  xrun es_json (Some "v1-") false es_start ls = Some k
  /\ x_hist k = before ++ [Ret 1 (OutFailed (EUnexpectedSeq 1 0));
                           Inv 3 (esave (Some 0) "s" ["b"; "c"]); Ret 3 (OutFailed (EUnexpectedSeq 0 2))]
  /\ In (Inv 1 (esave (Some 1) "s" ["b"; "c"])) before.
Proof.
  exists (contest ++ [XInvoke (esave (Some 0) "s" ["b"; "c"])] ++ do 3 1). eexists.
  exists (firstn 5 (x_hist (erun false contest))). split; [vm_compute; reflexivity|]. split; [vm_compute; reflexivity|]. vm_compute. tauto.
Qed.
Print Assumptions C111_eventstore_refuted.
