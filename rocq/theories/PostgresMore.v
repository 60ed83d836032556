(** More about the PostgreSQL store: order of commits, leaked connections, undecodable rows. *)
From Coq Require Import Sorted Permutation PeanoNat.
From Verif Require Import Base Locks LocksSpec LocksProofs Postgres PostgresSpec PostgresProofs PostgresStream PostgresAck.

Section More.
Variable j : jlib.
Variable key : string -> N.
Variable limit : nat.
Notation gstep := (gstep j key limit).
Notation grun := (grun j key limit).
Notation gcase := (gcase j key).
Notation Good := (Good j key).

Lemma always_here P k ls : always j key limit P k ls -> P k.
Proof. destruct ls; cbn; tauto. Qed.
Lemma always_end P ls : forall k k', always j key limit P k ls -> grun k ls = Some k' -> P k'.
Proof.
  induction ls as [|lb ls IH]; intros k k' HA E; cbn in E; [injection E as <-; apply HA|].
  destruct (gstep k lb) as [k1|] eqn:E1; [|discriminate]. cbn [always] in HA. rewrite E1 in HA. eapply IH; [apply HA|exact E].
Qed.

(** * Commits happen in the order of the numbers if inserts do not overlap *)
Record Ordered (k : pgconf) : Prop := {
  or_good : Good k;
  or_rows : StronglySorted gsn_lt (g_rows k);
  or_pending : forall r p, In r (g_rows k) -> In p (pending k) -> r_gsn r < r_gsn p;
  or_mine : forall i o todo mine, nth_error (g_calls k) i = Some (mk_pgcall o (PInsert todo mine)) -> StronglySorted gsn_lt mine
}.

Lemma sorted_app {A} (Rel : A -> A -> Prop) l l' : StronglySorted Rel l -> StronglySorted Rel l' ->
  (forall x y, In x l -> In y l' -> Rel x y) -> StronglySorted Rel (l ++ l').
Proof.
  induction 1 as [|a l H IH F]; cbn; auto. intros H' C. constructor; auto.
  apply Forall_app. split; auto. apply Forall_forall. auto.
Qed.
Lemma sorted_filter {A} (Rel : A -> A -> Prop) f l : StronglySorted Rel l -> StronglySorted Rel (filter f l).
Proof.
  induction 1 as [|a l H IH F]; cbn; [constructor|]. destruct (f a); auto. constructor; auto.
  apply Forall_forall. intros x Hx. apply filter_In in Hx. rewrite Forall_forall in F. apply F. tauto.
Qed.

Lemma pending_in k x : In x (pending k) <-> exists i c, nth_error (g_calls k) i = Some c /\ In x (mine_of c).
Proof.
  unfold pending. rewrite in_flat_map. split.
  - intros (c & Hc & Hx). apply In_nth_error in Hc as (i & Hi). eauto.
  - intros (i & c & Hi & Hx). exists c. split; auto. eapply nth_error_In; eauto.
Qed.

Lemma ordered_step k lb k' : Ordered k -> one_inserter k -> one_inserter k' -> gcase k lb k' -> Ordered k'.
Proof.
  intros [HG O1 O2 O3] I1 I2 C. pose proof (good_step _ _ _ _ _ HG C) as HG'.
  destruct HG as [[HS HN HU] HL].
  destruct C as [o|lb i o p p' lk h bc Hn Hq|lb i o r todo mine Hn|lb i o mine p' h Hn Hp|lb i o done x Hn Hx|skip]; split; auto; cbn [g_rows g_calls] in *; auto.
  - intros r p Hr. unfold pending. cbn. rewrite flat_map_app. cbn. rewrite app_nil_r. now apply O2.
  - intros a o' todo mine H. apply nth_app_new in H as [H|[_ E]]; [eauto|discriminate].
  - intros r x Hr. rewrite pending_in. cbn. intros (a & c & Ha & Hx). rewrite (nth_upd _ _ _ _ _ Hn) in Ha. destruct (Nat.eqb_spec a i) as [->|N].
    + injection Ha as <-. rewrite (mine_qm _ _ _ _ _ _ _ _ _ _ Hq) in Hx. destruct Hx.
    + apply O2; auto. apply pending_in. eauto.
  - intros a o' todo mine. rewrite (nth_upd _ _ _ _ _ Hn). destruct (Nat.eqb_spec a i) as [->|N]; eauto.
    intros E. injection E as <- ->. inversion Hq; subst. constructor.
  - assert (Hb : Forall (fun y => r_gsn y <= g_seq k) (pending k ++ g_rows k)) by apply HN. rewrite Forall_forall in Hb.
    intros x y Hx. rewrite pending_in. cbn. intros (a & c & Ha & Hy). rewrite (nth_upd _ _ _ _ _ Hn) in Ha. destruct (Nat.eqb_spec a i) as [->|N].
    + injection Ha as <-. cbn in Hy. apply in_app_iff in Hy as [Hy|[<-|[]]].
      * apply O2; auto. apply pending_in. eauto.
      * cbn. specialize (Hb x). rewrite in_app_iff in Hb. specialize (Hb (or_intror Hx)). lia.
    + apply O2; auto. apply pending_in. eauto.
  - assert (Hb : Forall (fun y => r_gsn y <= g_seq k) (pending k ++ g_rows k)) by apply HN. rewrite Forall_forall in Hb.
    intros a o' todo' mine'. rewrite (nth_upd _ _ _ _ _ Hn). destruct (Nat.eqb_spec a i) as [->|N]; eauto.
    intros E. injection E as <- <- <-. apply sorted_snoc; eauto. apply Forall_forall. intros y Hy. unfold gsn_lt. cbn.
    assert (r_gsn y <= g_seq k); [|lia]. apply Hb. apply in_app_iff. left. apply pending_in. eauto.
  - apply sorted_app; eauto. intros x y Hx Hy. apply O2; auto. apply pending_in. eauto.
  - intros x y Hx. rewrite pending_in. cbn. intros (a & c & Ha & Hy). rewrite (nth_upd _ _ _ _ _ Hn) in Ha. destruct (Nat.eqb_spec a i) as [->|N].
    + injection Ha as <-. exfalso. destruct Hp as [[-> _]|[-> _]]; destruct Hy.
    + apply in_app_iff in Hx as [Hx|Hx].
      * apply O2; auto. apply pending_in. eauto.
      * exfalso. apply N. eapply I1; eauto; unfold inserting; [intros E; rewrite E in Hy; destruct Hy|].
        cbn. intros ->. destruct Hx.
  - intros a o' todo' mine'. rewrite (nth_upd _ _ _ _ _ Hn). destruct (Nat.eqb_spec a i) as [->|N]; eauto.
    intros E. injection E as <- ->. destruct Hp as [[E _]|[E _]]; discriminate.
  - now apply sorted_filter.
  - intros u v Hu. rewrite pending_in. cbn. intros (a & c & Ha & Hy). rewrite (nth_upd _ _ _ _ _ Hn) in Ha. destruct (Nat.eqb_spec a i) as [->|N].
    + injection Ha as <-. destruct Hy.
    + apply O2; [|apply pending_in; eauto]. unfold removed_rows in Hu. apply filter_In in Hu. tauto.
  - intros a o' todo' mine'. rewrite (nth_upd _ _ _ _ _ Hn). destruct (Nat.eqb_spec a i) as [->|N]; eauto. discriminate.
  - unfold pending. cbn. rewrite pending_crash. cbn. tauto.
  - intros a o' todo' mine'. rewrite nth_error_map. destruct (nth_error (g_calls k) a) as [c0|] eqn:E0; [|discriminate]. cbn. intros E. injection E as E.
    destruct (crash_call_cases c0) as [[E1 E2]|E1]; rewrite E1 in E; [|discriminate]. subst c0. cbn in E2. destruct E2 as [E2|(m & E2)]; discriminate.
Qed.

Lemma ordered_start : Ordered pg_start.
Proof. split; [apply good_start|constructor|cbn; tauto|intros i; intros; destruct i; discriminate]. Qed.

(** Rows that appear are younger than every row that was there. *)
Lemma appears_later k lb k' r r0 : Ordered k -> gcase k lb k' -> In r (g_rows k') -> ~ In r (g_rows k) -> In r0 (g_rows k) -> r_gsn r0 < r_gsn r.
Proof.
  intros [HG O1 O2 O3] C Hr Hr' H0.
  destruct C as [o|lb i o p p' lk h bc Hn Hq|lb i o r1 todo mine Hn|lb i o mine p' h Hn Hp|lb i o done x Hn Hx|skip]; cbn [g_rows] in *; try tauto.
  - apply in_app_iff in Hr as [Hr|Hr]; [tauto|]. apply O2; auto. apply pending_in. eauto.
  - unfold removed_rows in Hr. apply filter_In in Hr. tauto.
Qed.

(** Numbers handed out later are larger than all numbers in the table ever. *)
Lemma behind_nothing ls : forall k k' b, Ordered k -> always j key limit one_inserter k ls -> grun k ls = Some k' ->
  (forall p, In p (pending k) -> b < r_gsn p) -> b <= g_seq k ->
  forall r, In r (g_rows k') -> r_gsn r <= b -> In r (g_rows k).
Proof.
  induction ls as [|lb ls IH]; intros k k' b HO HA E Hp Hb r Hr Hle; cbn in E; [now injection E as <-|].
  destruct (gstep k lb) as [k1|] eqn:E1; [|discriminate]. cbn [always] in HA. rewrite E1 in HA. destruct HA as [A1 A2].
  pose proof (step_cases _ _ _ _ _ _ E1) as C.
  assert (HO1 : Ordered k1) by (eapply ordered_step; eauto; eapply always_here; eauto).
  assert (Hr1 : In r (g_rows k1)).
  { apply (IH k1 k' b); auto.
    - intros p. rewrite pending_in. intros (a & c & Ha & Hx).
      destruct C as [o|lb i o q q' lk h bc Hn Hq|lb i o r1 todo mine Hn|lb i o mine p' h Hn Hp'|lb i o done x Hn Hx'|skip]; cbn [g_calls] in Ha.
      + apply nth_app_new in Ha as [Ha|[_ ->]]; [|destruct Hx]. apply Hp. apply pending_in. eauto.
      + rewrite (nth_upd _ _ _ _ _ Hn) in Ha. destruct (Nat.eqb_spec a i) as [->|N].
        * injection Ha as <-. rewrite (mine_qm _ _ _ _ _ _ _ _ _ _ Hq) in Hx. destruct Hx.
        * apply Hp. apply pending_in. eauto.
      + rewrite (nth_upd _ _ _ _ _ Hn) in Ha. destruct (Nat.eqb_spec a i) as [->|N].
        * injection Ha as <-. cbn in Hx. apply in_app_iff in Hx as [Hx|[<-|[]]]; [apply Hp; apply pending_in; eauto|cbn; lia].
        * apply Hp. apply pending_in. eauto.
      + rewrite (nth_upd _ _ _ _ _ Hn) in Ha. destruct (Nat.eqb_spec a i) as [->|N].
        * injection Ha as <-. destruct Hp' as [[-> _]|[-> _]]; destruct Hx.
        * apply Hp. apply pending_in. eauto.
      + rewrite (nth_upd _ _ _ _ _ Hn) in Ha. destruct (Nat.eqb_spec a i) as [->|N].
        * injection Ha as <-. destruct Hx.
        * apply Hp. apply pending_in. eauto.
      + exfalso. assert (In p (pending (mk_pg (g_rows k) (g_seq k + skip) (fun _ => None) (map crash_call (g_calls k)) (g_hist k ++ crash_acts 0 (g_calls k)) (g_bcast k))))
          by (apply pending_in; eauto). unfold pending in H. cbn in H. rewrite pending_crash in H. destruct H.
    - destruct C; cbn; lia. }
  destruct C as [o|lb i o q q' lk h bc Hn Hq|lb i o r1 todo mine Hn|lb i o mine p' h Hn Hp'|lb i o done x Hn Hx'|skip]; cbn [g_rows] in *; auto.
  - apply in_app_iff in Hr1 as [Hr1|Hr1]; auto. exfalso. assert (b < r_gsn r); [|lia]. apply Hp. apply pending_in. eauto.
  - unfold removed_rows in Hr1. apply filter_In in Hr1. tauto.
Qed.

Lemma ordered_run ls : forall k k', Ordered k -> always j key limit one_inserter k ls -> grun k ls = Some k' -> Ordered k'.
Proof.
  induction ls as [|lb ls IH]; intros k k' HO HA E; cbn in E; [now injection E as <-|].
  destruct (gstep k lb) as [k1|] eqn:E1; [|discriminate]. cbn [always] in HA. rewrite E1 in HA. destruct HA as [A1 A2].
  apply (IH k1); auto. eapply ordered_step; eauto; [eapply always_here; eauto|]. eapply step_cases; eauto.
Qed.

(** * Ordered reads *)
Lemma insert_sorted r l : StronglySorted (fun a b => r_gsn a <= r_gsn b) l -> StronglySorted (fun a b => r_gsn a <= r_gsn b) (insert_row r l).
Proof.
  induction 1 as [|a l H IH F]; cbn; [repeat constructor|]. destruct (N.leb_spec (r_gsn r) (r_gsn a)).
  - constructor; [constructor; auto|]. constructor; auto. eapply Forall_impl; [|exact F]. cbn. lia.
  - constructor; auto. apply Forall_forall. intros x Hx.
    assert (Hx' : x = r \/ In x l).
    { clear -Hx. induction l as [|b l IH]; cbn in Hx; [destruct Hx as [->|[]]; auto|]. destruct (r_gsn r <=? r_gsn b); cbn in *; [intuition congruence|].
      destruct Hx as [->|Hx]; auto. destruct (IH Hx); auto. }
    destruct Hx' as [->|Hx']; [lia|]. rewrite Forall_forall in F. now apply F.
Qed.
Lemma order_sorted l : StronglySorted (fun a b => r_gsn a <= r_gsn b) (order_by_gsn l).
Proof. induction l as [|r l IH]; cbn; [constructor|]. now apply insert_sorted. Qed.
Lemma insert_perm r l : Permutation (insert_row r l) (r :: l).
Proof. induction l as [|a l IH]; cbn; auto. destruct (_ <=? _); auto. rewrite IH. apply perm_swap. Qed.
Lemma order_perm l : Permutation (order_by_gsn l) l.
Proof. induction l as [|r l IH]; cbn; auto. rewrite insert_perm. now constructor. Qed.
Lemma order_id l : StronglySorted gsn_lt l -> order_by_gsn l = l.
Proof.
  induction 1 as [|a l H IH F]; cbn; auto. rewrite IH. destruct l as [|b l]; auto. cbn.
  inversion F; subst. unfold gsn_lt in *. destruct (N.leb_spec (r_gsn a) (r_gsn b)); auto. lia.
Qed.

(** Rows up to the first undecodable one. *)
Lemma read_rows_good rows : (forall r, In r rows -> decode_row j r <> None) ->
  exists l, read_rows j rows = map RRec l /\ Forall2 (fun r x => decode_row j r = Some x) rows l.
Proof.
  induction rows as [|r rows IH]; intros H; cbn.
  - exists []. auto.
  - destruct (decode_row j r) as [x|] eqn:E; [|exfalso; eapply (H r); auto; now left].
    destruct IH as (l & -> & F); [intros; apply H; now right|]. exists (x :: l). split; auto.
Qed.
Lemma read_rows_bad l r l' : decode_row j r = None -> (forall x, In x l -> decode_row j x <> None) ->
  exists out, read_rows j (l ++ r :: l') = map RRec out ++ [RErr EDeserialize] /\ Forall2 (fun r x => decode_row j r = Some x) l out.
Proof.
  intros Hr. induction l as [|a l IH]; intros H; cbn.
  - rewrite Hr. exists []. auto.
  - destruct (decode_row j a) as [x|] eqn:E; [|exfalso; eapply (H a); auto; now left].
    destruct IH as (out & -> & F); [intros; apply H; now right|]. exists (x :: out). auto.
Qed.
Lemma first_bad (rows : list record) : (forall r, In r rows -> decode_row j r <> None) \/
  exists l r l', rows = l ++ r :: l' /\ decode_row j r = None /\ (forall x, In x l -> decode_row j x <> None).
Proof.
  induction rows as [|r rows IH]; [left; intros ? []|]. destruct (decode_row j r) as [x|] eqn:E.
  - destruct IH as [H|(l & r' & l' & -> & H1 & H2)].
    + left. intros y [<-|Hy]; auto. congruence.
    + right. exists (r :: l), r', l'. repeat split; auto. intros y [<-|Hy]; auto. congruence.
  - right. exists [], r, rows. repeat split; auto.
Qed.
Lemma decode_gsn r x : decode_row j r = Some x -> r_gsn x = r_gsn r /\ r_ssn x = r_ssn r /\ r_stream x = r_stream r.
Proof. unfold decode_row. destruct (j_decode _ _ _); [|discriminate]. destruct (String.eqb _ _); [|discriminate]. intros E. injection E as <-. auto. Qed.
Lemma decode_meta r : r_meta r <> "null" -> decode_row j r = None.
Proof. intros H. unfold decode_row. destruct (j_decode _ _ _); auto. destruct (String.eqb_spec (r_meta r) "null"); [contradiction|auto]. Qed.

(** * Leaked connections *)
Definition is_leaked (c : pgcall) : bool := match pg_pc c with PDone true => true | _ => false end.
Definition leaks (k : pgconf) : nat := length (filter is_leaked (g_calls k)).

Lemma leaks_in_use k : (leaks k <= in_use k)%nat.
Proof.
  unfold leaks, in_use. induction (g_calls k) as [|c cs IH]; cbn; auto. destruct c as [o p]. unfold is_leaked at 1, uses_connection at 1. cbn.
  destruct p; cbn; try lia. destruct leaked; cbn; lia.
Qed.

Definition holds_on (lb : plabel) : Prop := match lb with GRelease _ | GCrash _ => False | _ => True end.

(** All calls made from [n0] on are waiting or were answered with a database error,
    and the connections are gone. *)
Record Starved (n0 : nat) (rows : list record) (k : pgconf) : Prop := {
  sv_told : Told k;
  sv_leaks : (limit <= leaks k)%nat;
  sv_rows : g_rows k = rows;
  sv_len : (n0 <= length (g_calls k))%nat;
  sv_old : forall i o p, (i < n0)%nat -> nth_error (g_calls k) i = Some (mk_pgcall o p) -> exists b, p = PDone b;
  sv_new : forall i o p, (n0 <= i)%nat -> nth_error (g_calls k) i = Some (mk_pgcall o p) -> p = PNew \/ p = PDone false;
  sv_ret : forall i o x, (n0 <= i)%nat -> In (Inv i o) (g_hist k) -> In (Ret i x) (g_hist k) -> x = db_error o
}.

Lemma leaks_upd k i o p p' : nth_error (g_calls k) i = Some (mk_pgcall o p) -> is_leaked (mk_pgcall o p) = false ->
  is_leaked (mk_pgcall o p') = false ->
  length (filter is_leaked (upd i (mk_pgcall o p') (g_calls k))) = length (filter is_leaked (g_calls k)).
Proof.
  intros Hn H1 H2. destruct (upd_split i _ (mk_pgcall o p') _ Hn) as (l1 & l2 & E1 & E2 & _). rewrite E2, E1, !filter_app, !app_length. cbn [filter].
  now rewrite H1, H2.
Qed.

Lemma starved_step n0 rows k lb k' : Starved n0 rows k -> holds_on lb -> gstep k lb = Some k' -> Starved n0 rows k'.
Proof.
  intros [T H1 H2 H3 H4 H5 H6] Hh E. pose proof (told_step _ _ _ _ _ T (step_cases _ _ _ _ _ _ E)) as T'.
  assert (Hu : Nat.leb limit (in_use k) = true) by (apply Nat.leb_le; pose proof (leaks_in_use k); lia).
  assert (Rep : forall i o, nth_error (g_calls k) i = Some (mk_pgcall o PNew) -> (n0 <= i)%nat -> forall lk,
    Told (mk_pg (g_rows k) (g_seq k) lk (upd i (mk_pgcall o (PDone false)) (g_calls k)) (g_hist k ++ [Ret i (db_error o)]) (g_bcast k)) ->
    Starved n0 rows (mk_pg (g_rows k) (g_seq k) lk (upd i (mk_pgcall o (PDone false)) (g_calls k)) (g_hist k ++ [Ret i (db_error o)]) (g_bcast k))).
  { intros i o Hn Hi lk TT. split; auto; cbn [g_rows g_calls g_hist].
    - unfold leaks. cbn. erewrite leaks_upd; eauto.
    - rewrite upd_length. auto.
    - intros a oa pa Ha. rewrite (nth_upd _ _ _ _ _ Hn). destruct (Nat.eqb_spec a i); [lia|]. eauto.
    - intros a oa pa Ha. rewrite (nth_upd _ _ _ _ _ Hn). destruct (Nat.eqb_spec a i); [|eauto]. intros E'. injection E' as _ <-. auto.
    - intros a oa x Ha HI HR. apply in_app_iff in HI as [HI|[HI|[]]]; [|discriminate]. apply in_app_iff in HR as [HR|[HR|[]]]; eauto.
      injection HR as <- <-. destruct (t_inv _ T _ _ HI) as (pa & Hp). rewrite Hn in Hp. now injection Hp as <- _. }
  assert (Cls : forall i o p, nth_error (g_calls k) i = Some (mk_pgcall o p) -> (n0 <= i)%nat /\ p = PNew \/ exists b, p = PDone b).
  { intros i o p Hn. destruct (Nat.lt_ge_cases i n0); [right; eauto|]. destruct (H5 i o p) as [->| ->]; eauto. }
  destruct lb as [o|i|i|i|i|sk]; cbn in Hh; try tauto; cbn [Postgres.gstep] in E.
  - injection E as <-. split; auto; cbn [g_rows g_calls g_hist].
    + unfold leaks. cbn. rewrite filter_app, app_length. unfold leaks in H1. lia.
    + rewrite app_length. lia.
    + intros i o' p Hi H. apply nth_app_new in H as [H|[-> _]]; eauto. lia.
    + intros i o' p Hi H. apply nth_app_new in H as [H|[_ H]]; eauto. injection H as _ ->. auto.
    + intros i o' x Hi HI HR. apply in_app_iff in HR as [HR|[HR|[]]]; [|discriminate]. apply in_app_iff in HI as [HI|[HI|[]]]; eauto.
      injection HI as <- <-. destruct (t_ret _ T _ _ HR) as (o'' & b & Hb). exfalso.
      assert (length (g_calls k) < length (g_calls k))%nat; [|lia]. apply nth_error_Some. congruence.
  - destruct (nth_error (g_calls k) i) as [[o p]|] eqn:Hn; [|discriminate]. destruct (Cls _ _ _ Hn) as [[Hi ->]|(b & ->)]; [|discriminate].
    cbn [pg_op pg_pc pg_step] in E. rewrite Hu in E. injection E as <-. apply (Rep i o Hn Hi _ T').
  - destruct (nth_error (g_calls k) i) as [[o p]|] eqn:Hn; [|discriminate]. destruct (Cls _ _ _ Hn) as [[Hi ->]|(b & ->)]; [|discriminate].
    cbn in E. injection E as <-. apply (Rep i o Hn Hi _ T').
  - destruct (nth_error (g_calls k) i) as [[o p]|] eqn:Hn; [|discriminate]. destruct (Cls _ _ _ Hn) as [[Hi ->]|(b & ->)]; discriminate.
Qed.

Lemma starved_run n0 rows ls : forall k k', Starved n0 rows k -> Forall holds_on ls -> grun k ls = Some k' -> Starved n0 rows k'.
Proof.
  induction ls as [|lb ls IH]; intros k k' HS HF E; cbn in E; [now injection E as <-|].
  destruct (gstep k lb) as [k1|] eqn:E1; [|discriminate]. inversion HF; subst. apply (IH k1); auto. eapply starved_step; eauto.
Qed.

End More.
