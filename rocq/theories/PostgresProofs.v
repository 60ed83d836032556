(** Invariants of the PostgreSQL store. *)
From Coq Require Import Sorted Permutation PeanoNat.
From Verif Require Import Base Locks LocksSpec LocksProofs Postgres PostgresSpec.

Section Proofs.
Variable j : jlib.
Variable key : string -> N.
Variable limit : nat.
Notation gstep := (gstep j key limit).
Notation grun := (grun j key limit).

(** * One step, by kinds *)
Definition freed (i : nat) (lk : N -> option nat) : N -> option nat :=
  fun x => match lk x with Some h => if Nat.eqb h i then None else Some h | None => None end.

Inductive qm (k : pgconf) (i : nat) : op -> pgpc -> pgpc -> (N -> option nat) -> list act -> list record -> Prop :=
| q_end o p x b lk : (forall n bc, x <> OutSaved n bc) -> x <> OutDeleted -> (forall m, p <> PSaved m) -> (forall m, p <> PDone m) ->
    lk = freed i (g_locks k) \/ (lk = g_locks k /\ p <> PCheck /\ forall t m, p <> PInsert t m) ->
    qm k i o p (PDone b) lk [Ret i x] []
| q_lock ex s e evs cn : qm k i (OpSave ex s (e :: evs) cn) PNew PLock (g_locks k) [] []
| q_locked ex s evs cn : g_locks k (key s) = None ->
    qm k i (OpSave ex s evs cn) PLock PCheck (fun x => if x =? key s then Some i else g_locks k x) [] []
| q_checked ex s evs cn rows :
    (forall x, ex = Some x -> x = max_ssn s (g_rows k)) ->
    batch_rows j s (first_type evs) (first_id evs) (max_ssn s (g_rows k)) evs = inr rows ->
    qm k i (OpSave ex s evs cn) PCheck (PInsert rows []) (g_locks k) [] []
| q_saved o mine : qm k i o (PSaved mine) (PDone false) (g_locks k)
    [Ret i (if snd (notify j mine) then OutSaved (last_ssn mine) (fst (notify j mine)) else OutFailed EDeserialize)]
    (fst (notify j mine))
| q_del ex s cn : qm k i (OpDelete ex s cn) PNew PDelCheck (g_locks k) [] []
| q_delok ex s cn : max_ssn s (g_rows k) = ex -> ex <> 0 -> qm k i (OpDelete ex s cn) PDelCheck PDelGo (g_locks k) [] []
| q_delgo ex s cn : qm k i (OpDelete ex s cn) PDelGo (PDeleting (map r_gsn (rows_of s (g_rows k))) []) (g_locks k) [] []
| q_delskip o g todo done : ~ In g (map r_gsn (g_rows k)) -> qm k i o (PDeleting (g :: todo) done) (PDeleting todo done) (g_locks k) [] []
| q_dellock o g todo done : In g (map r_gsn (g_rows k)) -> locked_by_other g i 0 (g_calls k) = false ->
    qm k i o (PDeleting (g :: todo) done) (PDeleting todo (done ++ [g])) (g_locks k) [] []
| q_release o : qm k i o (PDone true) (PDone false) (g_locks k) [] [].

Inductive gcase (k : pgconf) : plabel -> pgconf -> Prop :=
| m_invoke o : gcase k (GInvoke o) (mk_pg (g_rows k) (g_seq k) (g_locks k) (g_calls k ++ [mk_pgcall o PNew])
                         (g_hist k ++ [Inv (length (g_calls k)) o]) (g_bcast k))
| m_quiet lb i o p p' lk h bc : nth_error (g_calls k) i = Some (mk_pgcall o p) -> qm k i o p p' lk h bc ->
    gcase k lb (mk_pg (g_rows k) (g_seq k) lk (upd i (mk_pgcall o p') (g_calls k)) (g_hist k ++ h) (g_bcast k ++ bc))
| m_insert lb i o r todo mine : nth_error (g_calls k) i = Some (mk_pgcall o (PInsert (r :: todo) mine)) ->
    gcase k lb (mk_pg (g_rows k) (g_seq k + 1) (g_locks k)
                  (upd i (mk_pgcall o (PInsert todo (mine ++ [with_gsn (g_seq k + 1) r]))) (g_calls k)) (g_hist k) (g_bcast k))
| m_commit lb i o mine p' h : nth_error (g_calls k) i = Some (mk_pgcall o (PInsert [] mine)) ->
    (p' = PSaved mine /\ h = [] \/ p' = PDone false /\ h = [Ret i (OutFailed EDatabase)]) ->
    gcase k lb (mk_pg (g_rows k ++ mine) (g_seq k) (freed i (g_locks k)) (upd i (mk_pgcall o p') (g_calls k)) (g_hist k ++ h) (g_bcast k))
| m_delete lb i o done x : nth_error (g_calls k) i = Some (mk_pgcall o (PDeleting [] done)) ->
    (x = OutDeleted \/ x = OutFailed EDatabase) ->
    gcase k lb (mk_pg (removed_rows done (g_rows k)) (g_seq k) (g_locks k) (upd i (mk_pgcall o (PDone false)) (g_calls k))
                  (g_hist k ++ [Ret i x]) (g_bcast k))
| m_crash skip : gcase k (GCrash skip) (mk_pg (g_rows k) (g_seq k + skip) (fun _ => None) (map crash_call (g_calls k))
              (g_hist k ++ crash_acts 0 (g_calls k)) (g_bcast k)).

Lemma select_quiet o rows : (match o with OpSave _ _ _ _ | OpDelete _ _ _ => False | _ => True end) ->
  (forall n bc, select j o rows <> OutSaved n bc) /\ select j o rows <> OutDeleted.
Proof. destruct o; cbn; try tauto; intros _; split; try intros; discriminate. Qed.
Lemma db_error_quiet o : (forall n bc, db_error o <> OutSaved n bc) /\ db_error o <> OutDeleted.
Proof. destruct o; cbn; split; intros; discriminate. Qed.

Lemma existsb_eqb g l : existsb (N.eqb g) l = true <-> In g l.
Proof.
  rewrite existsb_exists. split.
  - intros (x & Hx & E). apply N.eqb_eq in E. now subst.
  - intros H. exists g. split; auto. apply N.eqb_refl.
Qed.

Lemma eta k : mk_pg (g_rows k) (g_seq k) (g_locks k) (g_calls k) (g_hist k) (g_bcast k) = k.
Proof. now destruct k. Qed.

Lemma step_cases k lb k' : gstep k lb = Some k' -> gcase k lb k'.
Proof.
  assert (Q : forall lb i o p p' lk h bc kk, nth_error (g_calls k) i = Some (mk_pgcall o p) -> qm k i o p p' lk h bc ->
    kk = mk_pg (g_rows k) (g_seq k) lk (upd i (mk_pgcall o p') (g_calls k)) (g_hist k ++ h) (g_bcast k ++ bc) -> gcase k lb kk)
    by (intros; subst; econstructor; eauto).
  destruct lb as [o|i|i|i|i|n]; cbn [Postgres.gstep].
  - intros E. injection E as <-. constructor.
  - destruct (nth_error (g_calls k) i) as [[o p]|] eqn:Hn; [|discriminate]. cbn [pg_op pg_pc].
    destruct p; cbn [pg_step].
    + destruct (Nat.leb limit (in_use k)).
      { intros E. injection E as <-. eapply (Q _ i o PNew (PDone false) (g_locks k) [Ret i (db_error o)] []); eauto.
        - constructor; try discriminate; try apply db_error_quiet. right. repeat split; discriminate.
        - unfold reply. now rewrite app_nil_r. }
      assert (Hr : forall x, (forall n bc, x <> OutSaved n bc) -> x <> OutDeleted -> gcase k (GStep i) (reply i o x false k)).
      { intros x H1 H2. eapply (Q _ i o PNew (PDone false) (g_locks k) [Ret i x] []); eauto.
        - constructor; try discriminate; auto. right. repeat split; discriminate.
        - unfold reply. now rewrite app_nil_r. }
      destruct o as [ex s [|e evs] cn|ex s cn|g|g ts|n s|s cn]; intros E; injection E as <-; try (apply Hr; intros; discriminate).
      * eapply (Q _ i _ PNew PLock); eauto; [constructor|]. unfold set_call. now rewrite !app_nil_r.
      * eapply (Q _ i _ PNew PDelCheck); eauto; [constructor|]. unfold set_call. now rewrite !app_nil_r.
    + destruct o as [ex s evs cn| | | | | ]; try discriminate. destruct (g_locks k (key s)) eqn:El; [discriminate|].
      intros E. injection E as <-. eapply (Q _ i _ PLock PCheck); eauto; [constructor; auto|].
      unfold set_call, take_lock. cbn. now rewrite !app_nil_r.
    + destruct o as [ex s evs cn| | | | | ]; try discriminate. cbv zeta.
      assert (Hr : forall e, gcase k (GStep i) (reply i (OpSave ex s evs cn) (OutFailed e) false (free_locks i k))).
      { intros e. eapply (Q _ i _ PCheck (PDone false) (freed i (g_locks k)) [Ret i (OutFailed e)] []); eauto.
        - constructor; try discriminate; auto.
        - unfold reply, free_locks. cbn. now rewrite app_nil_r. }
      destruct (match ex with Some x => _ | None => None end) as [e|] eqn:Ex; [intros E; injection E as <-; apply Hr|].
      destruct (batch_rows _ _ _ _ _ _) as [e|rows] eqn:Eb; intros E; injection E as <-; [apply Hr|].
      eapply (Q _ i _ PCheck (PInsert rows [])); eauto.
      * constructor; auto. intros x ->. destruct (N.eqb_spec (max_ssn s (g_rows k)) x); [auto|discriminate].
      * unfold set_call. now rewrite !app_nil_r.
    + destruct todo as [|r todo]; intros E; injection E as <-.
      * replace (set_call _ _ _ _) with (mk_pg (g_rows k ++ mine) (g_seq k) (freed i (g_locks k)) (upd i (mk_pgcall o (PSaved mine)) (g_calls k)) (g_hist k ++ []) (g_bcast k))
          by (now rewrite app_nil_r). econstructor; eauto.
      * exact (m_insert k _ i o r todo mine Hn).
    + destruct (notify j mine) as [l ok] eqn:En. intros E. injection E as <-.
      eapply (Q _ i _ (PSaved mine) (PDone false) _ _ _ _ Hn (q_saved k i o mine)). rewrite En. reflexivity.
    + destruct o as [|ex s cn| | | | ]; try discriminate. cbv zeta.
      assert (Hr : forall e, gcase k (GStep i) (reply i (OpDelete ex s cn) (OutFailed e) true k)).
      { intros e. eapply (Q _ i _ PDelCheck (PDone true) (g_locks k) [Ret i (OutFailed e)] []); eauto.
        - constructor; try discriminate; auto. right. repeat split; discriminate.
        - unfold reply. now rewrite app_nil_r. }
      destruct (N.eqb_spec (max_ssn s (g_rows k)) 0); [intros E; injection E as <-; apply Hr|].
      destruct (N.eqb_spec (max_ssn s (g_rows k)) ex); intros E; injection E as <-; [|apply Hr].
      eapply (Q _ i _ PDelCheck PDelGo); eauto; [constructor; congruence|]. unfold set_call. now rewrite !app_nil_r.
    + destruct o as [|ex s cn| | | | ]; try discriminate. intros E. injection E as <-.
      eapply (Q _ i _ PDelGo _ _ _ _ _ Hn (q_delgo k i ex s cn)). unfold set_call. now rewrite !app_nil_r.
    + destruct todo as [|g todo].
      * intros E. injection E as <-. exact (m_delete k _ i o done _ Hn (or_introl eq_refl)).
      * destruct (existsb (N.eqb g) (map r_gsn (g_rows k))) eqn:Eg; cbn [negb].
        -- destruct (locked_by_other g i 0 (g_calls k)) eqn:Eo; [discriminate|]. intros E. injection E as <-.
           eapply (Q _ i _ (PDeleting (g :: todo) done) _ _ _ _ _ Hn (q_dellock k i o g todo done (proj1 (existsb_eqb _ _) Eg) Eo)).
           unfold set_call. now rewrite !app_nil_r.
        -- intros E. injection E as <-. assert (Hg : ~ In g (map r_gsn (g_rows k))) by (intros H; apply existsb_eqb in H; congruence).
           eapply (Q _ i _ (PDeleting (g :: todo) done) _ _ _ _ _ Hn (q_delskip k i o g todo done Hg)). unfold set_call; now rewrite !app_nil_r.
    + discriminate.
  - destruct (nth_error (g_calls k) i) as [[o p]|] eqn:Hn; [|discriminate]. cbn [pg_op pg_pc].
    assert (Hr : (forall m, p <> PSaved m) -> (forall m, p <> PDone m) -> gcase k (GFail i) (reply i o (db_error o) false (free_locks i k))).
    { intros H1 H2. eapply (Q _ i o p (PDone false) (freed i (g_locks k)) [Ret i (db_error o)] []); eauto.
      - constructor; auto; apply db_error_quiet.
      - unfold reply, free_locks. cbn. now rewrite app_nil_r. }
    destruct p; cbn; try discriminate; try (intros E; injection E as <-; apply Hr; discriminate).
    intros E; injection E as <-. eapply (Q _ i o PDelCheck (PDone true) (g_locks k) [Ret i (OutFailed EDatabase)] []); eauto.
    + constructor; try discriminate. right. repeat split; discriminate.
    + unfold reply. now rewrite app_nil_r.
  - destruct (nth_error (g_calls k) i) as [[o p]|] eqn:Hn; [|discriminate]. cbn [pg_op pg_pc].
    destruct p as [| | |[|r todo] mine| | | |[|g todo] done|]; cbn; try discriminate; intros E; injection E as <-.
    + exact (m_commit k _ i o mine _ _ Hn (or_intror (conj eq_refl eq_refl))).
    + exact (m_delete k _ i o done _ Hn (or_intror eq_refl)).
  - destruct (nth_error (g_calls k) i) as [[o [| | | | | | | |[]]]|] eqn:Hn; try discriminate.
    intros E. injection E as <-. eapply (Q _ i o _ _ _ _ _ _ Hn (q_release k i o)). unfold set_call. now rewrite !app_nil_r.
  - intros E. injection E as <-. constructor.
Qed.

Lemma run_inv (I : pgconf -> Prop) : (forall k lb k', I k -> gcase k lb k' -> I k') ->
  forall ls k k', I k -> grun k ls = Some k' -> I k'.
Proof.
  intros Hs. induction ls as [|lb ls IH]; intros k k' Hk E; cbn in E; [now injection E as <-|].
  destruct (gstep k lb) as [k1|] eqn:E1; [|discriminate]. apply (IH k1); auto. apply step_cases in E1. eapply Hs; eauto.
Qed.

(** * Shapes *)
Definition is_save (o : op) (s : string) : Prop := exists ex evs cn, o = OpSave ex s evs cn.
Definition is_delete (o : op) (s : string) : Prop := exists ex cn, o = OpDelete ex s cn.
Definition shaped (c : pgcall) : Prop :=
  match pg_pc c with
  | PNew | PDone _ => True
  | PLock | PCheck => exists ex s e evs cn, pg_op c = OpSave ex s (e :: evs) cn
  | PInsert todo mine => exists ex s e evs cn, pg_op c = OpSave ex s (e :: evs) cn /\ Forall (fun r => r_stream r = s) (mine ++ todo)
      /\ Forall2 (row_for j s) (e :: evs) (mine ++ todo)
  | PSaved mine => exists ex s e evs cn, pg_op c = OpSave ex s (e :: evs) cn /\ Forall (fun r => r_stream r = s) mine
      /\ Forall2 (row_for j s) (e :: evs) mine
  | PDelCheck | PDelGo | PDeleting _ _ => exists s, is_delete (pg_op c) s
  end.
Definition Shape (k : pgconf) : Prop := forall i c, nth_error (g_calls k) i = Some c -> shaped c.

Lemma batch_shape s t i evs : forall n rows, batch_rows j s t i n evs = inr rows ->
  Forall (fun r => r_stream r = s) rows /\ length rows = length evs /\ map r_ssn rows = numbers_from (n + 1) (length evs)
  /\ Forall2 (row_for j s) evs rows.
Proof.
  induction evs as [|e evs IH]; intros n rows; cbn [batch_rows].
  - intros E. injection E as <-. repeat split; constructor.
  - destruct (negb _); [discriminate|]. destruct (negb _); [discriminate|].
    destruct (j_data j e) as [d|] eqn:Ed; [|discriminate]. destruct (j_meta j e) as [m|] eqn:Em; [|discriminate].
    destruct (batch_rows j s t i (n + 1) evs) as [|rows'] eqn:E1; [discriminate|]. intros E. injection E as <-.
    destruct (IH _ _ E1) as (H1 & H2 & H3 & H4). split; [|split; [|split]].
    + constructor; auto.
    + cbn. now rewrite H2.
    + cbn [map r_ssn length]. rewrite H3. unfold numbers_from. cbn [seq map]. f_equal; [lia|].
      rewrite <- seq_shift, map_map. apply map_ext. intros a. lia.
    + constructor; auto. unfold row_for. cbn. auto 10.
Qed.

Lemma nth_app_new {A} (l : list A) x i c : nth_error (l ++ [x]) i = Some c -> nth_error l i = Some c \/ (i = length l /\ c = x).
Proof.
  intros H. destruct (Nat.lt_ge_cases i (length l)).
  - rewrite nth_error_app1 in H by auto. auto.
  - rewrite nth_error_app2 in H by auto. destruct (i - length l)%nat as [|m] eqn:E; cbn in H.
    + injection H as <-. right. split; auto. lia.
    + destruct m; discriminate.
Qed.

Lemma crash_call_cases c : crash_call c = c /\ (pg_pc c = PNew \/ exists m, pg_pc c = PSaved m) \/ crash_call c = mk_pgcall (pg_op c) (PDone false).
Proof. destruct c as [o p]. unfold crash_call. cbn. destruct p; eauto. Qed.

Lemma shape_step k lb k' : Shape k -> gcase k lb k' -> Shape k'.
Proof.
  intros HS C. destruct C as [o|lb i o p p' lk h bc Hn Hq|lb i o r todo mine Hn|lb i o mine p' h Hn Hp|lb i o done x Hn Hx|skip]; intros a c; cbn [g_calls].
  - intros H. apply nth_app_new in H as [H|[_ ->]]; [eapply HS; eauto|]. exact Logic.I.
  - pose proof (HS _ _ Hn) as Hi. rewrite (nth_upd _ _ _ _ _ Hn). destruct (Nat.eqb a i); [|apply HS]. intros E. injection E as <-.
    destruct Hq; cbn in Hi |- *; auto; try exact Logic.I.
    + eauto 10.
    + destruct Hi as (ex' & s' & e & evs' & cn' & E). injection E as -> -> -> ->.
      apply batch_shape in H0 as (H1 & H2 & H3 & H4). eauto 10.
    + eexists _, _, _. reflexivity.
  - pose proof (HS _ _ Hn) as Hi. rewrite (nth_upd _ _ _ _ _ Hn). destruct (Nat.eqb a i); [|apply HS]. intros E. injection E as <-.
    cbn in Hi |- *. destruct Hi as (ex & s & e & evs & cn & -> & H1 & H2). eexists _, _, _, _, _. split; [reflexivity|].
    rewrite <- app_assoc. cbn. split.
    + apply Forall_app in H1 as [H1 H3]. inversion H3; subst. apply Forall_app. split; auto.
    + apply Forall2_app_inv_r in H2 as (e1 & e2 & F1 & F2 & ->). apply Forall2_app; auto. inversion F2; subst. constructor; auto.
  - pose proof (HS _ _ Hn) as Hi. rewrite (nth_upd _ _ _ _ _ Hn). destruct (Nat.eqb a i); [|apply HS]. intros E. injection E as <-.
    destruct Hp as [[-> _]|[-> _]]; [|exact Logic.I]. cbn in Hi |- *. rewrite app_nil_r in Hi. exact Hi.
  - rewrite (nth_upd _ _ _ _ _ Hn). destruct (Nat.eqb a i); [|apply HS]. intros E. injection E as <-. exact Logic.I.
  - rewrite nth_error_map. destruct (nth_error (g_calls k) a) as [c0|] eqn:E0; [|discriminate]. cbn. intros E. injection E as <-.
    destruct (crash_call_cases c0) as [[-> _]| ->]; [eapply HS; eauto|exact Logic.I].
Qed.

(** * Advisory locks *)
Definition Locked (k : pgconf) : Prop := forall i ex s evs cn p, nth_error (g_calls k) i = Some (mk_pgcall (OpSave ex s evs cn) p) ->
  p = PCheck \/ (exists t m, p = PInsert t m) -> g_locks k (key s) = Some i.

Lemma freed_other i lk x h : lk x = Some h -> h <> i -> freed i lk x = Some h.
Proof. unfold freed. intros -> N. destruct (Nat.eqb_spec h i); congruence. Qed.

Lemma locked_step k lb k' : Locked k -> gcase k lb k' -> Locked k'.
Proof.
  intros HL C. destruct C as [o|lb i o p p' lk h bc Hn Hq|lb i o r todo mine Hn|lb i o mine p' h Hn Hp|lb i o done x Hn Hx|skip];
    intros a ex s evs cn pa; cbn [g_calls g_locks].
  - intros H. apply nth_app_new in H as [H|[_ E]]; [eapply HL; eauto|]. injection E as <- ->. intros [H|(t & m & H)]; discriminate.
  - rewrite (nth_upd _ _ _ _ _ Hn). destruct (Nat.eqb_spec a i) as [->|N].
    + intros E. injection E as -> ->. intros Hp.
      inversion Hq; subst; try (destruct Hp as [Hp|(t & m & Hp)]; discriminate).
      * now rewrite N.eqb_refl.
      * eapply HL; eauto.
    + intros Ha Hp. pose proof (HL _ _ _ _ _ _ Ha Hp) as Hl.
      inversion Hq; subst; auto.
      * destruct H3 as [->|[-> _]]; auto. now apply freed_other.
      * destruct (N.eqb_spec (key s) (key s0)) as [E|]; auto. rewrite E in Hl. congruence.
  - rewrite (nth_upd _ _ _ _ _ Hn). destruct (Nat.eqb_spec a i) as [->|N].
    + intros E. injection E as -> <-. intros _. eapply HL; eauto.
    + apply HL.
  - rewrite (nth_upd _ _ _ _ _ Hn). destruct (Nat.eqb_spec a i) as [->|N].
    + intros E. injection E as -> ->. destruct Hp as [[-> _]|[-> _]]; intros [H|(t & m & H)]; discriminate.
    + intros Ha Hpa. apply freed_other; auto. eapply HL; eauto.
  - rewrite (nth_upd _ _ _ _ _ Hn). destruct (Nat.eqb_spec a i) as [->|N]; [|apply HL].
    intros E. injection E as -> <-. intros [H|(t & m & H)]; discriminate.
  - rewrite nth_error_map. destruct (nth_error (g_calls k) a) as [c0|] eqn:E0; [|discriminate]. cbn. intros E. injection E as E.
    destruct (crash_call_cases c0) as [[E1 E2]|E1]; rewrite E1 in E.
    + subst c0. cbn in E2. destruct E2 as [->|(m & ->)]; intros [H|(t & m' & H)]; discriminate.
    + injection E as _ <-. intros [H|(t & m & H)]; discriminate.
Qed.

(** * Numbers *)
Definition pending (k : pgconf) : list record := flat_map mine_of (g_calls k).
Record Numbered (k : pgconf) : Prop := {
  n_nodup : NoDup (map r_gsn (pending k ++ g_rows k));
  n_bound : Forall (fun r => r_gsn r <= g_seq k) (pending k ++ g_rows k)
}.

Lemma upd_split {A} i (c c' : A) : forall l, nth_error l i = Some c -> exists l1 l2, l = l1 ++ c :: l2 /\ upd i c' l = l1 ++ c' :: l2 /\ length l1 = i.
Proof.
  induction i as [|i IH]; intros [|a l] E; try discriminate; cbn in E.
  - injection E as ->. exists [], l. auto.
  - destruct (IH _ E) as (l1 & l2 & -> & E2 & <-). exists (a :: l1), l2. cbn. rewrite E2. auto.
Qed.

Lemma pending_upd i c c' cs : nth_error cs i = Some c -> exists rest,
  Permutation (flat_map mine_of cs) (mine_of c ++ rest) /\ Permutation (flat_map mine_of (upd i c' cs)) (mine_of c' ++ rest).
Proof.
  intros H. destruct (upd_split i c c' cs H) as (l1 & l2 & -> & -> & _). exists (flat_map mine_of l1 ++ flat_map mine_of l2).
  rewrite !flat_map_app. cbn. split; rewrite !app_assoc; apply Permutation_app_tail; apply Permutation_app_comm.
Qed.

Lemma nodup_app_l {A} (l l' : list A) : NoDup (l ++ l') -> NoDup l.
Proof.
  induction l as [|a l IH]; cbn; [constructor|]. intros H. inversion H; subst. constructor; auto.
  intros Hi. apply H2. apply in_or_app. auto.
Qed.

Lemma numbered_sub k k' dropped : Numbered k -> Permutation (pending k ++ g_rows k) ((pending k' ++ g_rows k') ++ dropped) ->
  g_seq k <= g_seq k' -> Numbered k'.
Proof.
  intros [H1 H2] P Hs. split.
  - rewrite (Permutation_map r_gsn P), map_app in H1. now apply nodup_app_l in H1.
  - rewrite P in H2. apply Forall_app in H2 as [H2 _]. eapply Forall_impl; [|exact H2]. cbn. lia.
Qed.

Lemma numbered_fresh k k' x : Numbered k -> Permutation (pending k' ++ g_rows k') (x :: pending k ++ g_rows k) ->
  r_gsn x = g_seq k + 1 -> g_seq k' = g_seq k + 1 -> Numbered k'.
Proof.
  intros [H1 H2] P Hx Hs. split.
  - rewrite (Permutation_map r_gsn P). cbn. constructor; auto. intros H. apply in_map_iff in H as (r & E & Hr).
    rewrite Forall_forall in H2. specialize (H2 _ Hr). lia.
  - rewrite P. constructor; [lia|]. eapply Forall_impl; [|exact H2]. cbn. lia.
Qed.

Lemma filter_perm {A} (f : A -> bool) l : Permutation l (filter f l ++ filter (fun x => negb (f x)) l).
Proof.
  induction l as [|a l IH]; cbn; auto. destruct (f a); cbn; [now constructor|].
  rewrite IH at 1. apply Permutation_middle.
Qed.

Lemma mine_qm k i o p p' lk h bc : qm k i o p p' lk h bc -> mine_of (mk_pgcall o p') = [].
Proof. destruct 1; reflexivity. Qed.

Lemma pending_crash cs : flat_map mine_of (map crash_call cs) = [].
Proof.
  induction cs as [|c cs IH]; cbn; auto. rewrite IH, app_nil_r. destruct c as [o p]. unfold crash_call. cbn. destruct p; reflexivity.
Qed.

Lemma numbered_step k lb k' : Numbered k -> gcase k lb k' -> Numbered k'.
Proof.
  intros HN C. destruct C as [o|lb i o p p' lk h bc Hn Hq|lb i o r todo mine Hn|lb i o mine p' h Hn Hp|lb i o done x Hn Hx|skip].
  - apply (numbered_sub k _ [] HN); [|reflexivity]. unfold pending. cbn. rewrite flat_map_app. cbn. rewrite !app_nil_r. reflexivity.
  - destruct (pending_upd i _ (mk_pgcall o p') _ Hn) as (rest & P1 & P2).
    apply (numbered_sub k _ (mine_of (mk_pgcall o p)) HN); [|reflexivity]. unfold pending. cbn [g_calls g_rows]. rewrite P1, P2.
    rewrite (mine_qm _ _ _ _ _ _ _ _ Hq). cbn [app]. rewrite Permutation_app_comm, app_assoc, Permutation_app_comm.
    rewrite app_assoc. apply Permutation_app_tail. rewrite Permutation_app_comm. reflexivity.
  - destruct (pending_upd i _ (mk_pgcall o (PInsert todo (mine ++ [with_gsn (g_seq k + 1) r]))) _ Hn) as (rest & P1 & P2).
    apply (numbered_fresh k _ (with_gsn (g_seq k + 1) r) HN); [|reflexivity|reflexivity]. unfold pending. cbn [g_calls g_rows].
    rewrite P1, P2. cbn [mine_of pg_pc]. rewrite <- !app_assoc. cbn. symmetry. apply Permutation_middle.
  - destruct (pending_upd i _ (mk_pgcall o p') _ Hn) as (rest & P1 & P2).
    apply (numbered_sub k _ [] HN); [|reflexivity]. unfold pending. cbn [g_calls g_rows]. rewrite P1, P2, app_nil_r.
    replace (mine_of (mk_pgcall o p')) with (@nil record) by (destruct Hp as [[-> _]|[-> _]]; reflexivity). cbn.
    rewrite <- app_assoc. rewrite Permutation_app_comm. now rewrite <- app_assoc.
  - destruct (pending_upd i _ (mk_pgcall o (PDone false)) _ Hn) as (rest & P1 & P2).
    eapply (numbered_sub k _ _ HN); [|reflexivity]. unfold pending. cbn [g_calls g_rows]. rewrite P1, P2. cbn [mine_of pg_pc app].
    rewrite (filter_perm (fun r => negb (existsb (N.eqb (r_gsn r)) done)) (g_rows k)) at 1. rewrite app_assoc. reflexivity.
  - apply (numbered_sub k _ (pending k) HN); [|cbn; lia]. unfold pending. cbn [g_calls g_rows]. rewrite pending_crash. cbn.
    apply Permutation_app_comm.
Qed.

(** * Rows a delete has found belong to its stream *)
Record Hunted (k : pgconf) : Prop := {
  u_shape : Shape k;
  u_num : Numbered k;
  u_rows : forall i ex s cn todo done, nth_error (g_calls k) i = Some (mk_pgcall (OpDelete ex s cn) (PDeleting todo done)) ->
     forall g, In g (todo ++ done) -> g <= g_seq k /\ (forall r, In r (pending k ++ g_rows k) -> r_gsn r = g -> r_stream r = s)
}.

Lemma nodup_gsn_inj l r r' : NoDup (map r_gsn l) -> In r l -> In r' l -> r_gsn r = r_gsn r' -> r = r'.
Proof.
  induction l as [|a l IH]; cbn; [tauto|]. intros H. inversion H; subst. intros [->|Hr] [->|Hr'] E; auto.
  - exfalso. apply H2. apply in_map_iff. eauto.
  - exfalso. apply H2. apply in_map_iff. eauto.
Qed.

Lemma hunted_step k lb k' : Hunted k -> gcase k lb k' -> Hunted k'.
Proof.
  intros [HS HN HU] C. pose proof (shape_step _ _ _ HS C) as HS'. pose proof (numbered_step _ _ _ HN C) as HN'. split; auto.
  assert (Old : forall i ex s cn todo done, nth_error (g_calls k) i = Some (mk_pgcall (OpDelete ex s cn) (PDeleting todo done)) ->
     forall g, In g (todo ++ done) -> g_seq k <= g_seq k' ->
     (forall r, In r (pending k' ++ g_rows k') -> In r (pending k ++ g_rows k) \/ g_seq k < r_gsn r) ->
     g <= g_seq k' /\ (forall r, In r (pending k' ++ g_rows k') -> r_gsn r = g -> r_stream r = s)).
  { intros i ex s cn todo done Hn g Hg Hs Hr. destruct (HU _ _ _ _ _ _ Hn g Hg) as [A1 A2]. split; [lia|].
    intros r Hin E. destruct (Hr r Hin) as [H|H]; [now apply A2|lia]. }
  assert (Sub : forall x, In x (pending k' ++ g_rows k') -> In x (pending k ++ g_rows k) \/ g_seq k < r_gsn x).
  { intros x. destruct C as [o|lb i o p p' lk h bc Hn Hq|lb i o r todo mine Hn|lb i o mine p' h Hn Hp|lb i o done y Hn Hx|skip]; unfold pending; cbn [g_calls g_rows].
    - rewrite flat_map_app. cbn. rewrite app_nil_r. auto.
    - destruct (pending_upd i _ (mk_pgcall o p') _ Hn) as (rest & P1 & P2). rewrite !in_app_iff.
      rewrite (Permutation_in' eq_refl P1), (Permutation_in' eq_refl P2), !in_app_iff, (mine_qm _ _ _ _ _ _ _ _ Hq). cbn. tauto.
    - destruct (pending_upd i _ (mk_pgcall o (PInsert todo (mine ++ [with_gsn (g_seq k + 1) r]))) _ Hn) as (rest & P1 & P2). rewrite !in_app_iff.
      rewrite (Permutation_in' eq_refl P1), (Permutation_in' eq_refl P2), !in_app_iff. cbn. rewrite in_app_iff. cbn.
      intros [[[H|[<-|[]]]|H]|H]; auto. right. cbn. lia.
    - destruct (pending_upd i _ (mk_pgcall o p') _ Hn) as (rest & P1 & P2). rewrite !in_app_iff.
      rewrite (Permutation_in' eq_refl P1), (Permutation_in' eq_refl P2), !in_app_iff.
      replace (mine_of (mk_pgcall o p')) with (@nil record) by (destruct Hp as [[-> _]|[-> _]]; reflexivity). cbn. tauto.
    - destruct (pending_upd i _ (mk_pgcall o (PDone false)) _ Hn) as (rest & P1 & P2). rewrite !in_app_iff.
      rewrite (Permutation_in' eq_refl P1), (Permutation_in' eq_refl P2), !in_app_iff. cbn. unfold removed_rows. rewrite filter_In. tauto.
    - rewrite pending_crash. cbn. rewrite in_app_iff. tauto. }
  assert (Seq : g_seq k <= g_seq k') by (destruct C; cbn; lia).
  intros a ex s cn todo done Ha g Hg. revert Ha.
  destruct C as [o|lb i o p p' lk h bc Hn Hq|lb i o r todo' mine Hn|lb i o mine p' h Hn Hp|lb i o done' y Hn Hx|skip]; cbn [g_calls].
  - intros H. apply nth_app_new in H as [H|[_ E]]; [eapply Old; eauto|discriminate].
  - rewrite (nth_upd _ _ _ _ _ Hn). destruct (Nat.eqb_spec a i) as [->|N]; [|intros; eapply Old; eauto].
    intros E. injection E as -> ->. inversion Hq; subst.
    + rewrite app_nil_r in Hg. apply in_map_iff in Hg as (r & <- & Hr). unfold rows_of in Hr. apply filter_In in Hr as [Hr Es].
      destruct HN as [ND BD]. rewrite Forall_forall in BD. split.
      * cbn. apply BD. rewrite in_app_iff. auto.
      * intros r' Hr' E'. destruct (Sub _ Hr') as [H|H].
        -- assert (r' = r) as -> by (eapply nodup_gsn_inj; eauto; rewrite in_app_iff; auto). now apply String.eqb_eq.
        -- exfalso. assert (r_gsn r <= g_seq k) by (apply BD; rewrite in_app_iff; auto). lia.
    + eapply Old; eauto. now right.
    + eapply Old; eauto. rewrite !in_app_iff in *. cbn in *. tauto.
  - rewrite (nth_upd _ _ _ _ _ Hn). destruct (Nat.eqb_spec a i) as [->|N]; [discriminate|intros; eapply Old; eauto].
  - rewrite (nth_upd _ _ _ _ _ Hn). destruct (Nat.eqb_spec a i) as [->|N]; [|intros; eapply Old; eauto].
    intros E. injection E as -> ->. destruct Hp as [[? _]|[? _]]; discriminate.
  - rewrite (nth_upd _ _ _ _ _ Hn). destruct (Nat.eqb_spec a i) as [->|N]; [discriminate|intros; eapply Old; eauto].
  - rewrite nth_error_map. destruct (nth_error (g_calls k) a) as [c0|] eqn:E0; [|discriminate]. cbn. intros E. injection E as E.
    destruct (crash_call_cases c0) as [[E1 E2]|E1]; rewrite E1 in E.
    + subst c0. cbn in E2. destruct E2 as [E2|(m & E2)]; discriminate.
    + discriminate.
Qed.

End Proofs.
