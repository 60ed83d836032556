(** Linearizability of a store whose calls take at most one lock each. *)
From Coq Require Import PeanoNat.
From Verif Require Import Base Locks LocksSpec.

(** * Lists *)
Lemma upd_length {A} i (x : A) l : length (upd i x l) = length l.
Proof. revert i; induction l as [|y l IH]; intros [|i]; cbn; auto. Qed.

Lemma nth_upd_eq {A} i (x y : A) l : nth_error l i = Some y -> nth_error (upd i x l) i = Some x.
Proof. revert i; induction l as [|z l IH]; intros [|i]; cbn; try discriminate; auto. Qed.

Lemma nth_upd_neq {A} i j (x : A) l : i <> j -> nth_error (upd i x l) j = nth_error l j.
Proof. revert i j; induction l as [|z l IH]; intros [|i] [|j] H; cbn; auto; try congruence. Qed.

Lemma nth_upd {A} i j (x y : A) l : nth_error l i = Some y ->
  nth_error (upd i x l) j = if Nat.eqb j i then Some x else nth_error l j.
Proof.
  intros H. destruct (Nat.eqb_spec j i) as [->|N].
  - now apply nth_upd_eq with y.
  - apply nth_upd_neq. auto.
Qed.

Lemma nth_snoc {A} (l : list A) x i : nth_error (l ++ [x]) i =
  if Nat.eqb i (length l) then Some x else nth_error l i.
Proof.
  destruct (Nat.eqb_spec i (length l)) as [->|N].
  - rewrite nth_error_app2, Nat.sub_diag by lia. reflexivity.
  - destruct (Nat.lt_ge_cases i (length l)).
    + now apply nth_error_app1.
    + rewrite nth_error_app2 by lia. rewrite (proj2 (nth_error_None l i)) by lia.
      apply nth_error_None. cbn. lia.
Qed.

Lemma before_snoc {A} (a b x : A) l : before a b (l ++ [x]) -> before a b l \/ (b = x /\ In a l).
Proof.
  intros (l1 & l2 & l3 & E).
  destruct l3 as [|z l3] using rev_ind.
  - right. replace (l1 ++ a :: l2 ++ [b]) with ((l1 ++ a :: l2) ++ [b]) in E by now rewrite <- app_assoc.
    apply app_inj_tail in E as [-> ->]. split; auto. apply in_app_iff. right. now left.
  - left. clear IHl3.
    replace (l1 ++ a :: l2 ++ b :: l3 ++ [z]) with ((l1 ++ a :: l2 ++ b :: l3) ++ [z]) in E
      by (rewrite <- !app_assoc; cbn; now rewrite <- app_assoc).
    apply app_inj_tail in E as [-> ->]. now exists l1, l2, l3.
Qed.

Lemma before_app {A} (a b : A) l l' : before a b l -> before a b (l ++ l').
Proof.
  intros (l1 & l2 & l3 & ->). exists l1, l2, (l3 ++ l').
  rewrite <- !app_assoc. cbn. now rewrite <- app_assoc.
Qed.

Lemma before_last {A} (a b : A) l : In a l -> before a b (l ++ [b]).
Proof.
  intros H. apply in_split in H as (l1 & l2 & ->). exists l1, l2, []. now rewrite <- app_assoc.
Qed.

Lemma run_app {S} (step : S -> op -> S * out) ops1 : forall s ops2,
  run step s (ops1 ++ ops2) =
  (let '(s1, x1) := run step s ops1 in let '(s2, x2) := run step s1 ops2 in (s2, x1 ++ x2)).
Proof.
  induction ops1 as [|o ops1 IH]; intros s ops2; cbn.
  - now destruct (run step s ops2).
  - destruct (step s o) as [s1 x]. rewrite IH. destruct (run step s1 ops1) as [s2 xs].
    now destruct (run step s2 ops2).
Qed.

Lemma NoDup_app_snoc {A} (l : list A) x : NoDup l -> ~ In x l -> NoDup (l ++ [x]).
Proof.
  intros H N. induction H as [|y l Hy H IH]; cbn.
  - constructor; auto. constructor.
  - constructor.
    + rewrite in_app_iff. cbn in *. intuition congruence.
    + apply IH. cbn in N. tauto.
Qed.

(** * The locking discipline of a store *)
Section Laws.
Context {S L Q R : Type}.
Variable ob : obj S L Q R.

(** Running the write-locked section, or a reading goroutine, to its end. *)
Inductive wruns : L -> S -> S -> out -> bool -> Prop :=
| wr_done : forall l s s' x b, o_wstep ob l s = WDone s' x b -> wruns l s s' x b
| wr_more : forall l s s1 l1 s' x b, o_wstep ob l s = WMore s1 l1 -> wruns l1 s1 s' x b -> wruns l s s' x b.

Inductive rruns : R -> S -> list result -> Prop :=
| rr_end : forall r s, o_rstep ob r s = REnd -> rruns r s []
| rr_skip : forall r s r' l, o_rstep ob r s = RSkip r' -> rruns r' s l -> rruns r s l
| rr_send : forall r s x r' l, o_rstep ob r s = RSend x r' -> rruns r' s l -> rruns r s (x :: l).

(** What a store must satisfy when it is used by one goroutine at a time.
    [ready]: the lock was not left locked by a panic.  [wok]: places that occur
    inside the write-locked section. *)
Record lawful (step : S -> op -> S * out) (ready : S -> Prop) (wok : L -> Prop) : Prop := {
  lw_direct : forall o s x, o_direct ob o s = Some x -> step s o = (s, x);
  lw_direct_none : forall o s s', o_direct ob o s = None -> o_direct ob o s' = None;
  lw_wok : forall o l, o_writes ob o = Some l -> wok l;
  lw_wok_step : forall l s s' l', wok l -> o_wstep ob l s = WMore s' l' -> wok l';
  lw_direct_stable : forall o l s s' l', wok l -> o_wstep ob l s = WMore s' l' -> o_direct ob o s' = o_direct ob o s;
  lw_write : forall o l s s' x b, ready s -> o_writes ob o = Some l -> o_direct ob o s = None ->
     wruns l s s' x b -> step s o = (s', x) /\ (b = true -> ready s');
  lw_now : forall o q s x, ready s -> o_queries ob o = [q] -> o_writes ob o = None -> o_direct ob o s = None ->
     o_rbegin ob q s = RNow x -> step s o = (s, x);
  lw_read : forall o q s r, ready s -> o_queries ob o = [q] -> o_writes ob o = None -> o_direct ob o s = None ->
     o_rbegin ob q s = RGo r -> exists l, rruns r s l /\ step s o = (s, OutResults l);
  lw_combine : forall o q l, o_queries ob o = [q] -> o_combine ob o [l] = OutResults l
}.

Variable step : S -> op -> S * out.
Variable ready : S -> Prop.
Variable wok : L -> Prop.
Hypothesis laws : lawful step ready wok.
Variable sinit : S.
Hypothesis ready_init : ready sinit.

(** * Read locks held *)
Notation conf := (conf (S := S) (L := L) (Q := Q) (R := R)).
Notation call := (call (L := L) (Q := Q) (R := R)).
Notation pc := (pc (L := L) (Q := Q) (R := R)).
Definition running (u : sub (R := R)) : nat := if ended u then 0 else 1.
Definition held (c : call) : nat :=
  match c_pc c with
  | CWantR subs _ _ | CBlocked subs _ _ | CRead subs => list_sum (map running subs)
  | CHave subs _ _ => Datatypes.S (list_sum (map running subs))
  | _ => 0
  end.
Definition total (l : list call) : nat := list_sum (map held l).

Lemma sum_upd {A} (f : A -> nat) l i x y : nth_error l i = Some y ->
  (list_sum (map f (upd i x l)) + f y = list_sum (map f l) + f x)%nat.
Proof.
  unfold list_sum. revert i; induction l as [|z l IH]; intros [|i] H; cbn in *; try discriminate.
  - injection H as ->. lia.
  - specialize (IH _ H). lia.
Qed.

Lemma sum_ge {A} (f : A -> nat) l i y : nth_error l i = Some y -> (f y <= list_sum (map f l))%nat.
Proof.
  unfold list_sum. revert i; induction l as [|z l IH]; intros [|i] H; cbn in *; try discriminate.
  - injection H as ->. lia.
  - specialize (IH _ H). lia.
Qed.

Lemma total_let_in l : total (map let_in l) = (total l + length (filter is_blocked l))%nat.
Proof.
  induction l as [|[o p] l IH]; auto. unfold total, list_sum in *. cbn [map fold_right].
  cbn [filter]. destruct p; cbn in *; rewrite IH; lia.
Qed.

(** * The invariant *)
Definition ord := list (nat * op * out).
Definition ids (r : ord) : list nat := map (fun t => fst (fst t)) r.
Definition ops_of (r : ord) : list op := map (fun t => snd (fst t)) r.

Definition fresh (i : nat) (r : ord) : Prop := ~ In i (ids r).

Definition sub_ok (s : S) (full : list result) (u : sub (R := R)) : Prop :=
  match u with
  | SRun r sent => exists l, rruns r s l /\ full = sent ++ l
  | SEnd sent false => full = sent
  | SEnd sent true => exists p rest, full = p ++ rest /\ (sent = p \/ sent = p ++ [RErr ECanceled])
  end.

Definition pc_ok (r : ord) (s : S) (i : nat) (o : op) (p : pc) : Prop :=
  match p with
  | CNew => fresh i r
  | CWantW | CWaitW | CWrite _ => fresh i r /\ o_writes ob o <> None /\ o_direct ob o sinit = None
  | CWritten x _ | CAfter x => In (i, o, x) r
  | CWantR subs q todo | CBlocked subs q todo | CHave subs q todo =>
      fresh i r /\ subs = [] /\ todo = [] /\ o_queries ob o = [q] /\ o_writes ob o = None /\ o_direct ob o sinit = None
  | CRead subs => exists q u full, subs = [u] /\ o_queries ob o = [q] /\ In (i, o, OutResults full) r /\ sub_ok s full u
  | CDone => True
  end.

(** Calls that announced themselves as writers, and whether they hold the lock. *)
Definition wplace (p : pc) : option bool :=
  match p with
  | CWaitW => Some false
  | CWrite _ | CWritten _ _ => Some true
  | _ => None
  end.

Record I (k : conf) (r : ord) (s0 : S) : Prop := {
  i_run : run step sinit (ops_of r) = (s0, map snd r);
  i_nodup : NoDup (ids r);
  i_calls_of : forall i o x, In (i, o, x) r -> exists p, nth_error (k_calls k) i = Some (mk_call o p);
  i_inv : forall i o, In (Inv i o) (k_hist k) <-> exists p, nth_error (k_calls k) i = Some (mk_call o p);
  i_count : k_readers k = total (k_calls k);
  i_w1 : forall i o p b, nth_error (k_calls k) i = Some (mk_call o p) -> wplace p = Some b -> k_writer k = Some (i, b);
  i_w2 : forall w, k_writer k = Some (w, true) -> k_readers k = 0%nat;
  i_write : forall i o l, nth_error (k_calls k) i = Some (mk_call o (CWrite l)) ->
     (forall s' x b, wruns l (k_shared k) s' x b -> step s0 o = (s', x) /\ (b = true -> ready s'))
     /\ (forall o', o_direct ob o' (k_shared k) = o_direct ob o' s0) /\ wok l;
  i_quiet : (forall i o l, nth_error (k_calls k) i <> Some (mk_call o (CWrite l))) -> k_shared k = s0;
  i_ready : (forall w, k_writer k <> Some (w, true)) -> ready s0;
  i_ready2 : forall i o x, nth_error (k_calls k) i = Some (mk_call o (CWritten x true)) -> ready s0;
  i_pc : forall i o p, nth_error (k_calls k) i = Some (mk_call o p) -> pc_ok r (k_shared k) i o p;
  i_ret : forall i x, In (Ret i x) (k_hist k) -> exists o, In (i, o, x) r;
  i_cut : forall i x, In (Cut i x) (k_hist k) -> exists o y, In (i, o, y) r /\ cut_short x y;
  i_rt : forall a i x j o x', before a (Inv j o) (k_hist k) -> a = Ret i x \/ a = Cut i x ->
     In (j, o, x') r -> exists oi y, before (i, oi, y) (j, o, x') r
}.

Lemma I_start : I (start sinit) [] sinit.
Proof.
  split; cbn; auto; try tauto.
  - constructor.
  - intros i o. split; [tauto|]. intros (p & H). now destruct i.
  - intros i; intros; destruct i; discriminate.
  - intros i; intros; destruct i; discriminate.
  - intros i; intros; destruct i; discriminate.
Qed.

Lemma fresh_in i o x r : In (i, o, x) r -> ~ fresh i r.
Proof. intros H F. apply F. unfold ids. apply in_map_iff. now exists (i, o, x). Qed.

Lemma ids_app r r' : ids (r ++ r') = ids r ++ ids r'.
Proof. apply map_app. Qed.

Lemma fresh_app i r t : fresh i (r ++ [t]) <-> fresh i r /\ i <> fst (fst t).
Proof.
  unfold fresh. rewrite ids_app, in_app_iff. cbn. intuition.
Qed.

(** A reader keeps writers out. *)
Lemma reader_quiet k r s0 i o p : I k r s0 -> nth_error (k_calls k) i = Some (mk_call o p) ->
  (0 < held (mk_call o p))%nat -> k_shared k = s0 /\ (forall w, k_writer k <> Some (w, true)) /\ ready s0.
Proof.
  intros Hi Hn Hh.
  assert (N : forall w, k_writer k <> Some (w, true)).
  { intros w E. pose proof (i_w2 _ _ _ Hi _ E) as Z. rewrite (i_count _ _ _ Hi) in Z.
    pose proof (sum_ge held _ _ _ Hn). unfold total in Z. lia. }
  split; [|split]; auto.
  - apply (i_quiet _ _ _ Hi). intros i' o' l E. apply (N i').
    apply (i_w1 _ _ _ Hi _ _ _ true E). reflexivity.
  - apply (i_ready _ _ _ Hi). auto.
Qed.

Lemma no_readers k r s0 i o p : I k r s0 -> k_readers k = 0%nat ->
  nth_error (k_calls k) i = Some (mk_call o p) -> held (mk_call o p) = 0%nat.
Proof.
  intros Hi Z Hn. rewrite (i_count _ _ _ Hi) in Z. pose proof (sum_ge held _ _ _ Hn). unfold total in Z. lia.
Qed.

(** Changing the order at its end only. *)
Lemma pc_ok_more r t s i o p : pc_ok r s i o p -> i <> fst (fst t) -> pc_ok (r ++ [t]) s i o p.
Proof.
  intros H N. destruct p; cbn in *; try rewrite fresh_app; try (apply in_app_iff; tauto); try tauto.
  destruct H as (q & u & full & A & B & C & D). exists q, u, full. rewrite in_app_iff. tauto.
Qed.

Lemma rt_more k r s0 j o x : I k r s0 -> fresh j r ->
  forall a i xi j' o' x', before a (Inv j' o') (k_hist k) -> a = Ret i xi \/ a = Cut i xi ->
  In (j', o', x') (r ++ [(j, o, x)]) -> exists oi y, before (i, oi, y) (j', o', x') (r ++ [(j, o, x)]).
Proof.
  intros Hi F a i xi j' o' x' B A Hin. apply in_app_iff in Hin as [Hin|[E|[]]].
  - destruct (i_rt _ _ _ Hi _ _ _ _ _ _ B A Hin) as (oi & y & H). exists oi, y. now apply before_app.
  - injection E as <- <- <-.
    assert (Ha : In a (k_hist k)).
    { destruct B as (l1 & l2 & l3 & ->). apply in_app_iff. right. now left. }
    assert (E : exists oi y, In (i, oi, y) r).
    { destruct A as [->| ->].
      - destruct (i_ret _ _ _ Hi _ _ Ha) as (oi & H). eauto.
      - destruct (i_cut _ _ _ Hi _ _ Ha) as (oi & y & H & _). eauto. }
    destruct E as (oi & y & E). exists oi, y. now apply before_last.
Qed.

Lemma rt_note k r s0 a0 : I k r s0 -> (match a0 with Inv _ _ => False | _ => True end) ->
  forall a i xi j' o' x', before a (Inv j' o') (k_hist k ++ [a0]) -> a = Ret i xi \/ a = Cut i xi ->
  In (j', o', x') r -> exists oi y, before (i, oi, y) (j', o', x') r.
Proof.
  intros Hi N a i xi j' o' x' B A Hin. apply before_snoc in B as [B|[E _]].
  - eapply i_rt; eauto.
  - subst a0. destruct N.
Qed.

(** Call [i] moves between places where it is not an announced writer. *)
Lemma I_set k r r' s0 i o p p' n' : I k r s0 -> nth_error (k_calls k) i = Some (mk_call o p) ->
  (n' + held (mk_call o p) = k_readers k + held (mk_call o p'))%nat ->
  wplace p = None -> wplace p' = None ->
  (r' = r \/ exists x, r' = r ++ [(i, o, x)] /\ fresh i r /\ step s0 o = (s0, x)) ->
  pc_ok r' (k_shared k) i o p' ->
  (forall w, k_writer k = Some (w, true) -> n' = 0%nat) ->
  I (mk_conf (k_shared k) n' (k_writer k) (upd i (mk_call o p') (k_calls k)) (k_hist k)) r' s0.
Proof.
  intros Hi Hn Hc Wp Wp' Hr Hp Hw2.
  assert (NW : forall l, p <> CWrite l) by (intros l ->; discriminate).
  assert (NW' : forall l, p' <> CWrite l) by (intros l ->; discriminate).
  assert (Hup : forall j, nth_error (upd i (mk_call o p') (k_calls k)) j
                = if Nat.eqb j i then Some (mk_call o p') else nth_error (k_calls k) j)
    by (intros j; eapply nth_upd; eauto).
  assert (Hops : forall j oj, (exists pj, nth_error (upd i (mk_call o p') (k_calls k)) j = Some (mk_call oj pj))
                 <-> exists pj, nth_error (k_calls k) j = Some (mk_call oj pj)).
  { intros j oj. rewrite Hup. destruct (Nat.eqb_spec j i) as [->|N]; [|tauto]. split.
    - intros (pj & [= <- _]). eauto.
    - intros (pj & E). rewrite Hn in E. injection E as <- _. eauto. }
  split; cbn [k_shared k_readers k_writer k_calls k_hist].
  - destruct Hr as [->|(x & -> & F & E)]; [apply Hi|].
    unfold ops_of. rewrite !map_app, run_app. fold (ops_of r). rewrite (i_run _ _ _ Hi). cbn. now rewrite E.
  - destruct Hr as [->|(x & -> & F & E)]; [apply Hi|].
    rewrite ids_app. apply NoDup_app_snoc; auto. apply Hi.
  - intros j oj x Hin. apply Hops. destruct Hr as [->|(y & -> & F & E)]; [eapply i_calls_of; eauto|].
    apply in_app_iff in Hin as [Hin|[[= <- <- _]|[]]]; [eapply i_calls_of; eauto|eauto].
  - intros j oj. rewrite Hops. apply Hi.
  - unfold total. pose proof (sum_upd held _ _ (mk_call o p') _ Hn). pose proof (i_count _ _ _ Hi). unfold total in *. lia.
  - intros j oj pj b. rewrite Hup. destruct (Nat.eqb_spec j i) as [->|N].
    + intros [= <- <-]. congruence.
    + apply Hi.
  - auto.
  - intros j oj l. rewrite Hup. destruct (Nat.eqb_spec j i) as [->|N].
    + intros [= _ E]. now apply NW' in E.
    + apply Hi.
  - intros H. apply (i_quiet _ _ _ Hi). intros j oj l E. apply (H j oj l). rewrite Hup.
    destruct (Nat.eqb_spec j i) as [->|N]; auto. rewrite Hn in E. injection E as _ E. now apply NW in E.
  - apply Hi.
  - intros j oj x. rewrite Hup. destruct (Nat.eqb_spec j i) as [->|N].
    + intros [= _ ->]. discriminate.
    + apply Hi.
  - intros j oj pj. rewrite Hup. destruct (Nat.eqb_spec j i) as [->|N].
    + now intros [= <- <-].
    + intros E. apply (i_pc _ _ _ Hi) in E. destruct Hr as [->|(x & -> & F & _)]; auto.
      apply pc_ok_more; auto.
  - intros j x E. destruct (i_ret _ _ _ Hi _ _ E) as (oj & H). exists oj.
    destruct Hr as [->|(y & -> & F & _)]; auto. apply in_app_iff; auto.
  - intros j x E. destruct (i_cut _ _ _ Hi _ _ E) as (oj & y & H & C). exists oj, y. split; auto.
    destruct Hr as [->|(z & -> & F & _)]; auto. apply in_app_iff; auto.
  - destruct Hr as [->|(x & -> & F & _)]; [apply Hi|]. apply (rt_more _ _ s0); auto.
Qed.

Lemma I_note k r s0 i x : I k r s0 -> (exists o, In (i, o, x) r) -> I (note (Ret i x) k) r s0.
Proof.
  intros Hi (o & Hin). destruct Hi. split; cbn; auto.
  - intros j oj. rewrite <- i_inv0, in_app_iff. cbn. intuition discriminate.
  - intros j y. rewrite in_app_iff. cbn. intros [H|[[= <- <-]|[]]]; eauto.
  - intros j y. rewrite in_app_iff. cbn. intros [H|[E|[]]]; [eauto|discriminate].
  - apply (rt_note k r s0); cbn; auto. now split.
Qed.

Lemma I_cut k r s0 i x y o : I k r s0 -> In (i, o, y) r -> cut_short x y -> I (note (Cut i x) k) r s0.
Proof.
  intros Hi Hin Hc. destruct Hi. split; cbn; auto.
  - intros j oj. rewrite <- i_inv0, in_app_iff. cbn. intuition discriminate.
  - intros j z. rewrite in_app_iff. cbn. intros [H|[E|[]]]; [eauto|discriminate].
  - intros j z. rewrite in_app_iff. cbn. intros [H|[[= <- <-]|[]]]; eauto.
  - apply (rt_note k r s0); cbn; auto. now split.
Qed.

(** The end of a call. *)
Lemma I_done k r s0 i o p x : I k r s0 -> nth_error (k_calls k) i = Some (mk_call o p) ->
  held (mk_call o p) = 0%nat -> wplace p = None -> In (i, o, x) r ->
  I (note (Ret i x) (set_pc i o CDone k)) r s0.
Proof.
  intros Hi Hn Hh Hw Hin. apply I_note; eauto.
  unfold set_pc. eapply I_set; eauto.
  - exact Logic.I.
  - apply Hi.
Qed.

(** * The writer's steps *)

(** Lock(): first in line. *)
Lemma I_announce k r s0 i o : I k r s0 -> nth_error (k_calls k) i = Some (mk_call o CWantW) ->
  k_writer k = None ->
  I (set_pc i o CWaitW (set_lock (k_readers k) (Some (i, false)) k)) r s0.
Proof.
  intros Hi Hn Hw.
  assert (Hup : forall j, nth_error (upd i (mk_call o CWaitW) (k_calls k)) j
                = if Nat.eqb j i then Some (mk_call o CWaitW) else nth_error (k_calls k) j)
    by (intros j; eapply nth_upd; eauto).
  assert (Hops : forall j oj, (exists pj, nth_error (upd i (mk_call o CWaitW) (k_calls k)) j = Some (mk_call oj pj))
                 <-> exists pj, nth_error (k_calls k) j = Some (mk_call oj pj)).
  { intros j oj. rewrite Hup. destruct (Nat.eqb_spec j i) as [->|N]; [|tauto]. split.
    - intros (pj & [= <- _]). eauto.
    - intros (pj & E). rewrite Hn in E. injection E as <- _. eauto. }
  pose proof (i_pc _ _ _ Hi _ _ _ Hn) as Hpc.
  assert (Hno : forall j oj pj b, nth_error (k_calls k) j = Some (mk_call oj pj) -> wplace pj = Some b -> False).
  { intros j oj pj b E W. pose proof (i_w1 _ _ _ Hi _ _ _ _ E W). congruence. }
  destruct Hi. split; cbn [k_shared k_readers k_writer k_calls k_hist set_pc set_lock]; auto.
  - intros j oj x Hin. apply Hops. eauto.
  - intros j oj. rewrite Hops. auto.
  - unfold total in *. pose proof (sum_upd held _ _ (mk_call o CWaitW) _ Hn) as E. cbn in E. cbn. lia.
  - intros j oj pj b. rewrite Hup. destruct (Nat.eqb_spec j i) as [->|N].
    + now intros [= <- <-] [= <-].
    + intros E W. destruct (Hno _ _ _ _ E W).
  - discriminate.
  - intros j oj l. rewrite Hup. destruct (Nat.eqb_spec j i) as [->|N]; [discriminate|]. eauto.
  - intros H. apply i_quiet0. intros j oj l E. apply (Hno _ _ _ true E). reflexivity.
  - intros _. apply i_ready0. congruence.
  - intros j oj x. rewrite Hup. destruct (Nat.eqb_spec j i) as [->|N]; [discriminate|]. eauto.
  - intros j oj pj. rewrite Hup. destruct (Nat.eqb_spec j i) as [->|N]; [|eauto].
    intros [= <- <-]. exact Hpc.
Qed.

(** Lock(): the readers have left. *)
Lemma I_acquire k r s0 i o l : I k r s0 -> nth_error (k_calls k) i = Some (mk_call o CWaitW) ->
  k_readers k = 0%nat -> o_writes ob o = Some l ->
  I (set_pc i o (CWrite l) (set_lock 0 (Some (i, true)) k)) r s0.
Proof.
  intros Hi Hn Hr Hl.
  assert (Hup : forall j, nth_error (upd i (mk_call o (CWrite l)) (k_calls k)) j
                = if Nat.eqb j i then Some (mk_call o (CWrite l)) else nth_error (k_calls k) j)
    by (intros j; eapply nth_upd; eauto).
  assert (Hops : forall j oj, (exists pj, nth_error (upd i (mk_call o (CWrite l)) (k_calls k)) j = Some (mk_call oj pj))
                 <-> exists pj, nth_error (k_calls k) j = Some (mk_call oj pj)).
  { intros j oj. rewrite Hup. destruct (Nat.eqb_spec j i) as [->|N]; [|tauto]. split.
    - intros (pj & [= <- _]). eauto.
    - intros (pj & E). rewrite Hn in E. injection E as <- _. eauto. }
  pose proof (i_pc _ _ _ Hi _ _ _ Hn) as Hpc.
  pose proof (i_w1 _ _ _ Hi _ _ _ false Hn eq_refl) as Hw.
  assert (Hno : forall j oj pj b, j <> i -> nth_error (k_calls k) j = Some (mk_call oj pj) -> wplace pj = Some b -> False).
  { intros j oj pj b N E W. pose proof (i_w1 _ _ _ Hi _ _ _ _ E W). congruence. }
  assert (Hq : k_shared k = s0).
  { apply (i_quiet _ _ _ Hi). intros j oj l' E. destruct (Nat.eq_dec j i) as [->|N]; [congruence|].
    apply (Hno _ _ _ true N E). reflexivity. }
  assert (Hrdy : ready s0) by (apply (i_ready _ _ _ Hi); congruence).
  destruct Hi. split; cbn [k_shared k_readers k_writer k_calls k_hist set_pc set_lock]; auto.
  - intros j oj x Hin. apply Hops. eauto.
  - intros j oj. rewrite Hops. auto.
  - unfold total in *. pose proof (sum_upd held _ _ (mk_call o (CWrite l)) _ Hn) as E. cbn in E. cbn. lia.
  - intros j oj pj b. rewrite Hup. destruct (Nat.eqb_spec j i) as [->|N].
    + now intros [= <- <-] [= <-].
    + intros E W. destruct (Hno _ _ _ _ N E W).
  - intros j oj l'. rewrite Hup. destruct (Nat.eqb_spec j i) as [->|N].
    + intros [= <- <-]. rewrite Hq. split; [|split; [auto|eapply lw_wok; eauto]]. intros s' x b Hwr.
      eapply lw_write; eauto. eapply lw_direct_none; eauto. apply Hpc.
    + intros E. destruct (Hno _ _ _ true N E). reflexivity.
  - intros j oj pj. rewrite Hup. destruct (Nat.eqb_spec j i) as [->|N]; [|eauto].
    intros [= <- <-]. exact Hpc.
Qed.

Lemma held_zero_ok r s s' i o p : held (mk_call o p) = 0%nat -> pc_ok r s i o p -> pc_ok r s' i o p.
Proof.
  intros Hh H. destruct p; cbn in *; auto.
  destruct H as (q & u & full & -> & B & C & D). exists q, u, full. split; [|split; [|split]]; auto.
  destruct u as [rr sent|sent cut]; cbn in *; [lia|auto].
Qed.

(** Inside the critical section. *)
Lemma I_write_more k r s0 i o l s l' : I k r s0 -> nth_error (k_calls k) i = Some (mk_call o (CWrite l)) ->
  o_wstep ob l (k_shared k) = WMore s l' ->
  I (set_pc i o (CWrite l') (set_shared s k)) r s0.
Proof.
  intros Hi Hn Hs.
  assert (Hup : forall j, nth_error (upd i (mk_call o (CWrite l')) (k_calls k)) j
                = if Nat.eqb j i then Some (mk_call o (CWrite l')) else nth_error (k_calls k) j)
    by (intros j; eapply nth_upd; eauto).
  assert (Hops : forall j oj, (exists pj, nth_error (upd i (mk_call o (CWrite l')) (k_calls k)) j = Some (mk_call oj pj))
                 <-> exists pj, nth_error (k_calls k) j = Some (mk_call oj pj)).
  { intros j oj. rewrite Hup. destruct (Nat.eqb_spec j i) as [->|N]; [|tauto]. split.
    - intros (pj & [= <- _]). eauto.
    - intros (pj & E). rewrite Hn in E. injection E as <- _. eauto. }
  pose proof (i_pc _ _ _ Hi _ _ _ Hn) as Hpc.
  pose proof (i_w1 _ _ _ Hi _ _ _ true Hn eq_refl) as Hw.
  pose proof (i_w2 _ _ _ Hi _ Hw) as Hr.
  assert (Hno : forall j oj pj b, j <> i -> nth_error (k_calls k) j = Some (mk_call oj pj) -> wplace pj = Some b -> False).
  { intros j oj pj b N E W. pose proof (i_w1 _ _ _ Hi _ _ _ _ E W). congruence. }
  pose proof (fun j oj pj => no_readers _ _ _ j oj pj Hi Hr) as Hz.
  destruct Hi. split; cbn [k_shared k_readers k_writer k_calls k_hist set_pc set_shared]; auto.
  - intros j oj x Hin. apply Hops. eauto.
  - intros j oj. rewrite Hops. auto.
  - unfold total in *. pose proof (sum_upd held _ _ (mk_call o (CWrite l')) _ Hn) as E. cbn in E. cbn. lia.
  - intros j oj pj b. rewrite Hup. destruct (Nat.eqb_spec j i) as [->|N].
    + intros [= <- <-] [= <-]. auto.
    + intros E W. destruct (Hno _ _ _ _ N E W).
  - intros j oj lj. rewrite Hup. destruct (Nat.eqb_spec j i) as [->|N].
    + intros [= <- <-]. destruct (i_write0 _ _ _ Hn) as (A & B & C). split; [|split].
      * intros s' x b Hwr. apply A. eapply wr_more; eauto.
      * intros o'. rewrite <- B. eapply lw_direct_stable; eauto.
      * eapply lw_wok_step; eauto.
    + intros E. destruct (Hno _ _ _ true N E). reflexivity.
  - intros H. destruct (H i o l'). rewrite Hup, Nat.eqb_refl. reflexivity.
  - intros j oj x. rewrite Hup. destruct (Nat.eqb_spec j i) as [->|N]; [discriminate|]. eauto.
  - intros j oj pj. rewrite Hup. destruct (Nat.eqb_spec j i) as [->|N].
    + intros [= <- <-]. exact Hpc.
    + intros E. eapply held_zero_ok; eauto.
Qed.

(** The step at which the call takes effect. *)
Lemma I_write_done k r s0 i o l s x b : I k r s0 -> nth_error (k_calls k) i = Some (mk_call o (CWrite l)) ->
  o_wstep ob l (k_shared k) = WDone s x b ->
  I (set_pc i o (CWritten x b) (set_shared s k)) (r ++ [(i, o, x)]) s.
Proof.
  intros Hi Hn Hs.
  assert (Hup : forall j, nth_error (upd i (mk_call o (CWritten x b)) (k_calls k)) j
                = if Nat.eqb j i then Some (mk_call o (CWritten x b)) else nth_error (k_calls k) j)
    by (intros j; eapply nth_upd; eauto).
  assert (Hops : forall j oj, (exists pj, nth_error (upd i (mk_call o (CWritten x b)) (k_calls k)) j = Some (mk_call oj pj))
                 <-> exists pj, nth_error (k_calls k) j = Some (mk_call oj pj)).
  { intros j oj. rewrite Hup. destruct (Nat.eqb_spec j i) as [->|N]; [|tauto]. split.
    - intros (pj & [= <- _]). eauto.
    - intros (pj & E). rewrite Hn in E. injection E as <- _. eauto. }
  pose proof (i_pc _ _ _ Hi _ _ _ Hn) as Hpc.
  pose proof (i_w1 _ _ _ Hi _ _ _ true Hn eq_refl) as Hw.
  pose proof (i_w2 _ _ _ Hi _ Hw) as Hr.
  assert (Hno : forall j oj pj b, j <> i -> nth_error (k_calls k) j = Some (mk_call oj pj) -> wplace pj = Some b -> False).
  { intros j oj pj b' N E W. pose proof (i_w1 _ _ _ Hi _ _ _ _ E W). congruence. }
  pose proof (fun j oj pj => no_readers _ _ _ j oj pj Hi Hr) as Hz.
  pose proof (rt_more _ _ _ i o x Hi (proj1 Hpc)) as Hrt.
  assert (Hst : step s0 o = (s, x) /\ (b = true -> ready s)).
  { apply (i_write _ _ _ Hi _ _ _ Hn). now apply wr_done. }
  destruct Hst as [Hst Hrd].
  destruct Hi. split; cbn [k_shared k_readers k_writer k_calls k_hist set_pc set_shared]; auto.
  - unfold ops_of. rewrite !map_app, run_app. fold (ops_of r). rewrite i_run0. cbn. now rewrite Hst.
  - rewrite ids_app. apply NoDup_app_snoc; auto. apply Hpc.
  - intros j oj y Hin. apply Hops. apply in_app_iff in Hin as [Hin|[[= <- <- _]|[]]]; eauto.
  - intros j oj. rewrite Hops. auto.
  - unfold total in *. pose proof (sum_upd held _ _ (mk_call o (CWritten x b)) _ Hn) as E. cbn in E. cbn. lia.
  - intros j oj pj b'. rewrite Hup. destruct (Nat.eqb_spec j i) as [->|N].
    + intros [= <- <-] [= <-]. auto.
    + intros E W. destruct (Hno _ _ _ _ N E W).
  - intros j oj lj. rewrite Hup. destruct (Nat.eqb_spec j i) as [->|N]; [discriminate|].
    intros E. destruct (Hno _ _ _ true N E). reflexivity.
  - intros H. destruct (H _ Hw).
  - intros j oj y. rewrite Hup. destruct (Nat.eqb_spec j i) as [->|N].
    + intros [= _ _ ->]. auto.
    + intros E. destruct (Hno _ _ _ true N E). reflexivity.
  - intros j oj pj. rewrite Hup. destruct (Nat.eqb_spec j i) as [->|N].
    + intros [= <- <-]. cbn. apply in_app_iff. right. now left.
    + intros E. apply pc_ok_more; auto. eapply held_zero_ok; eauto.
  - intros j y E. destruct (i_ret0 _ _ E) as (oj & H). exists oj. apply in_app_iff; auto.
  - intros j y E. destruct (i_cut0 _ _ E) as (oj & z & H & C). exists oj, z. split; auto. apply in_app_iff; auto.
Qed.

(** Unlock(). *)
Lemma nth_let_in (l : list call) j : nth_error (map let_in l) j = option_map let_in (nth_error l j).
Proof. revert j; induction l as [|c l IH]; intros [|j]; cbn; auto. Qed.

Lemma let_in_cases o p o' p' : let_in (mk_call o p) = (mk_call o' p' : call) ->
  o' = o /\ ((exists subs q todo, p = CBlocked subs q todo /\ p' = CHave subs q todo) \/ p' = p).
Proof.
  destruct p; cbn; intros E; injection E as <- <-; split; auto. left. eauto.
Qed.

Lemma I_unlock k r s0 i o x : I k r s0 -> nth_error (k_calls k) i = Some (mk_call o (CWritten x true)) ->
  I (set_pc i o (CAfter x) (unlock k)) r s0.
Proof.
  intros Hi Hn.
  assert (Hn' : nth_error (map let_in (k_calls k)) i = Some (mk_call o (CWritten x true)))
    by (rewrite nth_let_in, Hn; reflexivity).
  assert (Hup : forall j, nth_error (upd i (mk_call o (CAfter x)) (map let_in (k_calls k))) j
                = if Nat.eqb j i then Some (mk_call o (CAfter x)) else nth_error (map let_in (k_calls k)) j)
    by (intros j; eapply nth_upd; eauto).
  assert (Hget : forall j oj pj, nth_error (map let_in (k_calls k)) j = Some (mk_call oj pj) ->
     exists pj', nth_error (k_calls k) j = Some (mk_call oj pj') /\
       ((exists subs q todo, pj' = CBlocked subs q todo /\ pj = CHave subs q todo) \/ pj = pj')).
  { intros j oj pj. rewrite nth_let_in. destruct (nth_error (k_calls k) j) as [[o1 p1]|]; [|discriminate].
    cbn [option_map]. intros E. injection E as E. apply let_in_cases in E as [-> E]. eauto. }
  assert (Hops : forall j oj, (exists pj, nth_error (upd i (mk_call o (CAfter x)) (map let_in (k_calls k))) j = Some (mk_call oj pj))
                 <-> exists pj, nth_error (k_calls k) j = Some (mk_call oj pj)).
  { intros j oj. rewrite Hup. destruct (Nat.eqb_spec j i) as [->|N].
    - split.
      + intros (pj & [= <- _]). eauto.
      + intros (pj & E). rewrite Hn in E. injection E as <- _. eauto.
    - split.
      + intros (pj & E). apply Hget in E as (pj' & E & _). eauto.
      + intros (pj & E). rewrite nth_let_in, E. cbn. destruct pj; cbn; eauto. }
  pose proof (i_pc _ _ _ Hi _ _ _ Hn) as Hpc.
  pose proof (i_w1 _ _ _ Hi _ _ _ true Hn eq_refl) as Hw.
  assert (Hno : forall j oj pj b, j <> i -> nth_error (k_calls k) j = Some (mk_call oj pj) -> wplace pj = Some b -> False).
  { intros j oj pj b' N E W. pose proof (i_w1 _ _ _ Hi _ _ _ _ E W). congruence. }
  assert (Hno' : forall j oj pj b, j <> i -> nth_error (map let_in (k_calls k)) j = Some (mk_call oj pj) -> wplace pj = Some b -> False).
  { intros j oj pj b N E W. apply Hget in E as (pj' & E & [(subs & q & todo & -> & ->)| ->]); [discriminate|]. eauto. }
  assert (Hq : k_shared k = s0).
  { apply (i_quiet _ _ _ Hi). intros j oj l E. destruct (Nat.eq_dec j i) as [->|N]; [congruence|].
    apply (Hno _ _ _ true N E). reflexivity. }
  assert (Hrdy : ready s0) by (eapply i_ready2; eauto).
  destruct Hi. split; cbn [k_shared k_readers k_writer k_calls k_hist set_pc unlock]; auto.
  - intros j oj y Hin. apply Hops. eauto.
  - intros j oj. rewrite Hops. auto.
  - unfold total in *. pose proof (sum_upd held _ _ (mk_call o (CAfter x)) _ Hn') as E. cbn in E.
    pose proof (total_let_in (k_calls k)) as T. unfold total in T. cbn in *. lia.
  - intros j oj pj b. rewrite Hup. destruct (Nat.eqb_spec j i) as [->|N].
    + intros [= <- <-]. discriminate.
    + intros E W. destruct (Hno' _ _ _ _ N E W).
  - discriminate.
  - intros j oj l. rewrite Hup. destruct (Nat.eqb_spec j i) as [->|N]; [discriminate|].
    intros E. destruct (Hno' _ _ _ true N E). reflexivity.
  - intros j oj pj. rewrite Hup. destruct (Nat.eqb_spec j i) as [->|N].
    + intros [= <- <-]. exact Hpc.
    + intros E. apply Hget in E as (pj' & E & [(subs & q & todo & -> & ->)| ->]).
      * apply i_pc0 in E. exact E.
      * eauto.
Qed.

(** A panic left the lock locked: the call ends all the same. *)
Lemma I_poison k r s0 i o x : I k r s0 -> nth_error (k_calls k) i = Some (mk_call o (CWritten x false)) ->
  I (note (Ret i x) (set_pc i o CDone k)) r s0.
Proof.
  intros Hi Hn.
  assert (Hup : forall j, nth_error (upd i (mk_call o CDone) (k_calls k)) j
                = if Nat.eqb j i then Some (mk_call o CDone) else nth_error (k_calls k) j)
    by (intros j; eapply nth_upd; eauto).
  assert (Hops : forall j oj, (exists pj, nth_error (upd i (mk_call o CDone) (k_calls k)) j = Some (mk_call oj pj))
                 <-> exists pj, nth_error (k_calls k) j = Some (mk_call oj pj)).
  { intros j oj. rewrite Hup. destruct (Nat.eqb_spec j i) as [->|N]; [|tauto]. split.
    - intros (pj & [= <- _]). eauto.
    - intros (pj & E). rewrite Hn in E. injection E as <- _. eauto. }
  pose proof (i_pc _ _ _ Hi _ _ _ Hn) as Hpc.
  pose proof (i_w1 _ _ _ Hi _ _ _ true Hn eq_refl) as Hw.
  assert (Hno : forall j oj pj b, j <> i -> nth_error (k_calls k) j = Some (mk_call oj pj) -> wplace pj = Some b -> False).
  { intros j oj pj b N E W. pose proof (i_w1 _ _ _ Hi _ _ _ _ E W). congruence. }
  apply I_note; [|eauto].
  destruct Hi. split; cbn [k_shared k_readers k_writer k_calls k_hist set_pc]; auto.
  - intros j oj y Hin. apply Hops. eauto.
  - intros j oj. rewrite Hops. auto.
  - unfold total in *. pose proof (sum_upd held _ _ (mk_call o CDone) _ Hn) as E. cbn in E. cbn. lia.
  - intros j oj pj b. rewrite Hup. destruct (Nat.eqb_spec j i) as [->|N].
    + intros [= <- <-]. discriminate.
    + intros E W. destruct (Hno _ _ _ _ N E W).
  - intros j oj l. rewrite Hup. destruct (Nat.eqb_spec j i) as [->|N]; [discriminate|].
    intros E. destruct (Hno _ _ _ true N E). reflexivity.
  - intros H. apply i_quiet0. intros j oj l E. destruct (Nat.eq_dec j i) as [->|N]; [congruence|].
    apply (Hno _ _ _ true N E). reflexivity.
  - intros j oj y. rewrite Hup. destruct (Nat.eqb_spec j i) as [->|N]; [discriminate|]. eauto.
  - intros j oj pj. rewrite Hup. destruct (Nat.eqb_spec j i) as [->|N]; [|eauto].
    intros [= <- <-]. exact Logic.I.
Qed.

(** A new call. *)
Lemma I_invoke k r s0 o : I k r s0 ->
  I (note (Inv (length (k_calls k)) o)
       (mk_conf (k_shared k) (k_readers k) (k_writer k) (k_calls k ++ [mk_call o CNew]) (k_hist k))) r s0.
Proof.
  intros Hi.
  assert (Hold : forall j c, nth_error (k_calls k) j = Some c -> j <> length (k_calls k)).
  { intros j c E. pose proof (proj1 (nth_error_Some (k_calls k) j)). rewrite E in H.
    assert (j < length (k_calls k))%nat by (apply H; discriminate). lia. }
  assert (Hget : forall j oj pj, nth_error (k_calls k ++ [mk_call o CNew]) j = Some (mk_call oj pj) ->
     nth_error (k_calls k) j = Some (mk_call oj pj) \/ (j = length (k_calls k) /\ oj = o /\ pj = CNew)).
  { intros j oj pj. rewrite nth_snoc. destruct (Nat.eqb_spec j (length (k_calls k))) as [->|N]; auto.
    intros [= <- <-]. auto. }
  assert (Hkeep : forall j c, nth_error (k_calls k) j = Some c -> nth_error (k_calls k ++ [mk_call o CNew]) j = Some c).
  { intros j c E. rewrite nth_snoc. destruct (Nat.eqb_spec j (length (k_calls k))) as [->|N]; auto.
    now destruct (Hold _ _ E). }
  assert (Hf : fresh (length (k_calls k)) r).
  { intros H. apply in_map_iff in H as ([[j oj] y] & Ej & H). cbn in Ej.
    destruct (i_calls_of _ _ _ Hi _ _ _ H) as (p & E). now apply (Hold _ _ E). }
  destruct Hi. split; cbn [k_shared k_readers k_writer k_calls k_hist note]; auto.
  - intros j oj y Hin. destruct (i_calls_of0 _ _ _ Hin) as (p & E). eauto.
  - intros j oj. rewrite in_app_iff, i_inv0. split.
    + intros [(p & E)|[[= <- <-]|[]]]; [eauto|]. exists CNew. rewrite nth_snoc, Nat.eqb_refl. reflexivity.
    + intros (p & E). apply Hget in E as [E|(-> & -> & _)]; [eauto|]. right. now left.
  - unfold total in *. rewrite map_app. unfold list_sum in *. rewrite fold_right_app. cbn. auto.
  - intros j oj pj b E W. apply Hget in E as [E|(_ & _ & ->)]; [eauto|discriminate].
  - intros j oj l E. apply Hget in E as [E|(_ & _ & E)]; [eauto|discriminate].
  - intros H. apply i_quiet0. intros j oj l E. apply (H j oj l). auto.
  - intros j oj y E. apply Hget in E as [E|(_ & _ & E)]; [eauto|discriminate].
  - intros j oj pj E. apply Hget in E as [E|(-> & -> & ->)]; [eauto|]. exact Hf.
  - intros j y. rewrite in_app_iff. intros [H|[E|[]]]; [eauto|discriminate].
  - intros j y. rewrite in_app_iff. intros [H|[E|[]]]; [eauto|discriminate].
  - intros a j xj j' o' x' B A Hin. apply before_snoc in B as [B|[E _]]; [eauto|].
    injection E as -> ->. now apply fresh_in in Hin.
Qed.

(** Reading goroutines. *)
Lemma subs_of_cases (p : pc) subs consumer back : subs_of p = Some (subs, consumer, back) ->
  (p = back subs) /\ (forall l, wplace (back l) = None) /\ wplace p = None
  /\ (forall l o n, (n + list_sum (map running subs) = list_sum (map running l))%nat ->
        (held (mk_call o (back subs)) + n = held (mk_call o (back l)))%nat)
  /\ (forall l o n, (n + list_sum (map running l) = list_sum (map running subs))%nat ->
        (held (mk_call o (back l)) + n = held (mk_call o (back subs)))%nat)
  /\ (consumer = false -> (forall l, p <> CRead l)) /\ (consumer = true -> back = CRead).
Proof.
  destruct p; cbn; intros E; try discriminate; injection E as <- <- <-; cbn;
    repeat split; auto; intros; try lia; try discriminate.
Qed.

Lemma pc_reading r s i o p subs consumer back : pc_ok r s i o p -> subs_of p = Some (subs, consumer, back) ->
  forall j u, nth_error subs j = Some u ->
  consumer = true /\ p = CRead [u] /\ subs = [u] /\ j = 0%nat /\ back = CRead.
Proof.
  intros H E j u Hu. destruct p; cbn in *; try discriminate; injection E as <- <- <-;
    try (destruct H as (_ & -> & _); now destruct j).
  destruct H as (q & u' & full & -> & _). destruct j as [|[|j]]; cbn in Hu; try discriminate.
  injection Hu as ->. auto.
Qed.

Lemma I_step k r s0 lb k' : I k r s0 -> kstep ob k lb = Some k' ->
  (forall o, lb = LInvoke o -> (length (o_queries ob o) <= 1)%nat) ->
  (forall i o p, nth_error (k_calls k) i = Some (mk_call o p) -> (length (o_queries ob o) <= 1)%nat) ->
  exists r' s0', I k' r' s0'.
Proof.
  intros Hi E Hone1 Hone. destruct lb as [o|i|i j|i j told]; cbn in E.
  - injection E as <-. exists r, s0. now apply I_invoke.
  - destruct (nth_error (k_calls k) i) as [[o p]|] eqn:Hn; [|discriminate].
    pose proof (i_pc _ _ _ Hi _ _ _ Hn) as Hpc. pose proof (Hone _ _ _ Hn) as H1.
    unfold step_call in E. cbn [c_op c_pc] in E. destruct p; cbn in Hpc.
    + (* new *)
      destruct (o_direct ob o (k_shared k)) as [x|] eqn:Hd.
      * injection E as <-.
        assert (Hd0 : o_direct ob o s0 = Some x).
        { destruct (k_writer k) as [[w [|]]|] eqn:Hw.
          - destruct (List.existsb (fun c : call => match c_pc c with CWrite _ => true | _ => false end) (k_calls k)) eqn:Hx.
            + apply existsb_exists in Hx as ([o1 p1] & Hin & Hc). apply In_nth_error in Hin as (n & Hin).
              cbn in Hc. destruct p1; try discriminate.
              rewrite <- (proj1 (proj2 (i_write _ _ _ Hi _ _ _ Hin))). auto.
            + rewrite <- (i_quiet _ _ _ Hi); auto. intros i' o' l Hin. apply nth_error_In in Hin.
              assert (F : List.existsb (fun c : call => match c_pc c with CWrite _ => true | _ => false end) (k_calls k) = true)
                by (apply existsb_exists; eexists; split; [exact Hin|reflexivity]).
              congruence.
          - rewrite <- (i_quiet _ _ _ Hi); auto. intros i' o' l Hin.
            pose proof (i_w1 _ _ _ Hi _ _ _ true Hin eq_refl). congruence.
          - rewrite <- (i_quiet _ _ _ Hi); auto. intros i' o' l Hin.
            pose proof (i_w1 _ _ _ Hi _ _ _ true Hin eq_refl). congruence. }
        exists (r ++ [(i, o, x)]), s0. apply I_note.
        -- unfold set_pc. eapply I_set; eauto; try reflexivity.
           ++ right. exists x. repeat split; auto. now apply (lw_direct _ _ _ laws).
           ++ apply Hi.
        -- exists o. apply in_app_iff. right. now left.
      * assert (Hd0 : o_direct ob o sinit = None) by (eapply lw_direct_none; eauto).
        destruct (o_writes ob o) as [l|] eqn:Hwr.
        -- injection E as <-. exists r, s0. unfold set_pc. eapply I_set; eauto; try reflexivity.
           ++ cbn. repeat split; auto. congruence.
           ++ apply Hi.
        -- destruct (o_queries ob o) as [|q [|q' todo]] eqn:Hq; try discriminate; [|cbn in H1; lia].
           injection E as <-. exists r, s0. unfold set_pc. eapply I_set; eauto; try reflexivity.
           ++ cbn. repeat split; auto.
           ++ apply Hi.
    + destruct (k_writer k) eqn:Hw; [discriminate|]. injection E as <-. exists r, s0. now apply I_announce.
    + destruct (k_readers k) eqn:Hr; [|discriminate]. destruct (o_writes ob o) as [l|] eqn:Hwr; [|discriminate].
      injection E as <-. exists r, s0. now apply I_acquire.
    + destruct (o_wstep ob l (k_shared k)) as [s l'|s x b|] eqn:Hs; [| |discriminate]; injection E as <-.
      * exists r, s0. eapply I_write_more; eauto.
      * exists (r ++ [(i, o, x)]), s. eapply I_write_done; eauto.
    + destruct release; injection E as <-; exists r, s0; [now apply I_unlock|now apply I_poison].
    + injection E as <-. exists r, s0. eapply I_done; eauto.
    + destruct Hpc as (F & -> & -> & Hq & Hwr & Hd).
      destruct (k_writer k) eqn:Hw; injection E as <-; exists r, s0.
      * unfold set_pc. eapply I_set; eauto; try reflexivity.
        -- cbn. repeat split; auto.
        -- apply Hi.
      * unfold set_pc, set_lock. cbn [k_shared k_readers k_writer k_calls k_hist]. rewrite <- Hw.
        eapply I_set; eauto; try reflexivity.
        -- cbn. lia.
        -- cbn. repeat split; auto.
        -- congruence.
    + discriminate.
    + destruct Hpc as (F & -> & -> & Hq & Hwr & Hd).
      destruct (reader_quiet _ _ _ _ _ _ Hi Hn) as (Es & Hnw & Hrdy); [cbn; lia|].
      assert (Hd0 : o_direct ob o s0 = None) by (eapply lw_direct_none; eauto).
      assert (Hpos : (1 <= k_readers k)%nat).
      { rewrite (i_count _ _ _ Hi). pose proof (sum_ge held _ _ _ Hn). unfold total. cbn in H. lia. }
      destruct (o_rbegin ob q (k_shared k)) as [rd|x] eqn:Hb.
      * destruct (lw_read _ _ _ laws o q s0 rd) as (full & Hrun & Hst); auto; [now rewrite <- Es|].
        injection E as <-. exists (r ++ [(i, o, OutResults full)]), s0.
        unfold set_pc. eapply I_set; eauto; try reflexivity.
        -- cbn. exists q, (SRun rd []), full. repeat split; auto.
           ++ apply in_app_iff. right. now left.
           ++ exists full. rewrite Es. auto.
        -- intros w Hw. now apply Hnw in Hw.
      * assert (Hst : step s0 o = (s0, x)) by (eapply lw_now; eauto; now rewrite <- Es).
        injection E as <-. exists (r ++ [(i, o, x)]), s0.
        unfold set_pc, set_lock. cbn [k_shared k_readers k_writer k_calls k_hist].
        eapply I_set; eauto; try reflexivity.
        -- cbn. lia.
        -- cbn. apply in_app_iff. right. now left.
        -- intros w Hw. now apply Hnw in Hw.
    + destruct Hpc as (q & u & full & -> & Hq & Hin & Hu).
      destruct u as [rd sent|sent cut]; cbn in E; [discriminate|].
      injection E as <-. exists r, s0. rewrite (lw_combine _ _ _ laws _ _ _ Hq).
      destruct cut; cbn in Hu |- *.
      * destruct Hu as (p & rest & -> & Hs).
        apply I_cut with (o := o) (y := OutResults (p ++ rest)); auto.
        -- unfold set_pc. eapply I_set; eauto; try reflexivity; apply Hi.
        -- exists p, rest. split; auto. destruct Hs as [->| ->]; auto.
      * subst full. apply I_note; eauto. unfold set_pc.
        eapply I_set; eauto; try reflexivity; apply Hi.
    + discriminate.
  - destruct (nth_error (k_calls k) i) as [[o p]|] eqn:Hn; [|discriminate].
    pose proof (i_pc _ _ _ Hi _ _ _ Hn) as Hpc.
    unfold step_sub in E. cbn [c_op c_pc] in E.
    destruct (subs_of p) as [[[subs consumer] back]|] eqn:Hs; [|discriminate].
    destruct (nth_error subs j) as [[rd sent|]|] eqn:Hj; try discriminate.
    destruct (pc_reading _ _ _ _ _ _ _ _ Hpc Hs _ _ Hj) as (-> & -> & -> & -> & ->).
    destruct Hpc as (q & u & full & E1 & Hq & Hin & Hu). injection E1 as <-.
    destruct (reader_quiet _ _ _ _ _ _ Hi Hn) as (Es & Hnw & Hrdy); [cbn; lia|].
    assert (Hpos : (1 <= k_readers k)%nat).
    { rewrite (i_count _ _ _ Hi). pose proof (sum_ge held _ _ _ Hn). unfold total. cbn in H. lia. }
    cbn in Hu. destruct Hu as (l & Hr & ->).
    destruct (o_rstep ob rd (k_shared k)) as [rd'|x rd'|] eqn:Hst; injection E as <-; exists r, s0; cbn [upd].
    + unfold set_pc. eapply I_set; eauto; try reflexivity; [|apply Hi].
      exists q, (SRun rd' sent), (sent ++ l). repeat split; auto. exists l. split; auto.
      inversion Hr; congruence.
    + unfold set_pc. eapply I_set; eauto; try reflexivity; [|apply Hi].
      inversion Hr as [| |? ? x1 rd1 l1 E1 Hr1]; subst; try congruence.
      rewrite Hst in E1. injection E1 as <- <-.
      exists q, (SRun rd' (sent ++ [x])), (sent ++ x :: l1). repeat split; auto. exists l1. split; auto.
      now rewrite <- app_assoc.
    + unfold set_pc, set_lock. cbn [k_shared k_readers k_writer k_calls k_hist].
      eapply I_set; eauto; try reflexivity.
      * cbn. lia.
      * exists q, (SEnd sent false), (sent ++ l). repeat split; auto. cbn.
        inversion Hr; try congruence. now rewrite app_nil_r.
      * intros w Hw. now apply Hnw in Hw.
  - destruct (nth_error (k_calls k) i) as [[o p]|] eqn:Hn; [|discriminate].
    pose proof (i_pc _ _ _ Hi _ _ _ Hn) as Hpc.
    unfold cancel_sub in E. cbn [c_op c_pc] in E.
    destruct (subs_of p) as [[[subs consumer] back]|] eqn:Hs; [|discriminate].
    destruct (nth_error subs j) as [[rd sent|]|] eqn:Hj; try discriminate.
    destruct (pc_reading _ _ _ _ _ _ _ _ Hpc Hs _ _ Hj) as (-> & -> & -> & -> & ->).
    destruct Hpc as (q & u & full & E1 & Hq & Hin & Hu). injection E1 as <-.
    destruct (reader_quiet _ _ _ _ _ _ Hi Hn) as (Es & Hnw & Hrdy); [cbn; lia|].
    assert (Hpos : (1 <= k_readers k)%nat).
    { rewrite (i_count _ _ _ Hi). pose proof (sum_ge held _ _ _ Hn). unfold total. cbn in H. lia. }
    cbn in Hu. destruct Hu as (l & Hr & ->).
    destruct (o_rstep ob rd (k_shared k)) as [rd'|[x|e] rd'|] eqn:Hst; try discriminate.
    assert (Ei : implb told true = true) by now destruct told.
    rewrite Ei in E. injection E as <-. exists r, s0. cbn [upd].
    unfold set_pc, set_lock. cbn [k_shared k_readers k_writer k_calls k_hist].
    eapply I_set; eauto; try reflexivity.
    + cbn. lia.
    + eexists q, _, (sent ++ l). repeat split; eauto. cbn. exists sent, l. split; auto.
      destruct told; [right|left]; auto. now rewrite app_nil_r.
    + intros w Hw. now apply Hnw in Hw.
Qed.

Lemma calls_made k lb k' : kstep ob k lb = Some k' -> forall i o p,
  nth_error (k_calls k') i = Some (mk_call o p) ->
  (exists p', nth_error (k_calls k) i = Some (mk_call o p')) \/ lb = LInvoke o.
Proof.
  assert (Hu : forall (l : list call) i o p1 p, nth_error l i = Some (mk_call o p1) -> forall j oj pj,
    nth_error (upd i (mk_call o p) l) j = Some (mk_call oj pj) -> exists p', nth_error l j = Some (mk_call oj p')).
  { intros l i o p1 p H j oj pj. rewrite (nth_upd _ _ _ _ _ H). destruct (Nat.eqb_spec j i) as [->|N]; eauto.
    intros [= <- <-]. eauto. }
  assert (Hl : forall (l : list call) j oj pj, nth_error (map let_in l) j = Some (mk_call oj pj) ->
    exists p', nth_error l j = Some (mk_call oj p')).
  { intros l j oj pj. rewrite nth_let_in. destruct (nth_error l j) as [[o1 p1]|]; [|discriminate].
    cbn [option_map]. intros H. injection H as H. apply let_in_cases in H as [-> _]. eauto. }
  intros E i o p H. destruct lb as [o1|i1|i1 j|i1 j told]; cbn in E.
  - injection E as <-. cbn in H. rewrite nth_snoc in H. destruct (Nat.eqb i _).
    + injection H as -> _. auto.
    + eauto.
  - left. destruct (nth_error (k_calls k) i1) as [[oi pi]|] eqn:Hn; [|discriminate].
    unfold step_call in E. cbn [c_op c_pc] in E.
    repeat match type of E with
    | context [match ?x with _ => _ end] => destruct x eqn:?
    end; try discriminate; injection E as <-; cbn in H; try (eapply Hu; eauto; fail).
    assert (Hn' : exists p2, nth_error (map let_in (k_calls k)) i1 = Some (mk_call oi p2)).
    { rewrite nth_let_in, Hn. subst pi. cbn. eauto. }
    destruct Hn' as (p2 & Hn'). destruct (Hu _ _ _ _ _ Hn' _ _ _ H) as (p' & H'). eapply Hl; eauto.
  - left. destruct (nth_error (k_calls k) i1) as [[oi pi]|] eqn:Hn; [|discriminate].
    unfold step_sub in E. cbn [c_op c_pc] in E.
    repeat match type of E with
    | context [match ?x with _ => _ end] => destruct x eqn:?
    end; try discriminate; injection E as <-; cbn in H; eapply Hu; eauto.
  - left. destruct (nth_error (k_calls k) i1) as [[oi pi]|] eqn:Hn; [|discriminate].
    unfold cancel_sub in E. cbn [c_op c_pc] in E.
    repeat match type of E with
    | context [match ?x with _ => _ end] => destruct x eqn:?
    end; try discriminate; injection E as <-; cbn in H; eapply Hu; eauto.
Qed.

Lemma I_krun ls : forall k r s0 k', I k r s0 -> krun ob k ls = Some k' ->
  (forall o, In (LInvoke o) ls -> (length (o_queries ob o) <= 1)%nat) ->
  (forall i o p, nth_error (k_calls k) i = Some (mk_call o p) -> (length (o_queries ob o) <= 1)%nat) ->
  exists r' s0', I k' r' s0'.
Proof.
  induction ls as [|lb ls IH]; intros k r s0 k' Hi E Hone Hc; cbn in E.
  - injection E as <-. eauto.
  - destruct (kstep ob k lb) as [k1|] eqn:E1; [|discriminate].
    destruct (I_step k r s0 lb k1 Hi E1) as (r1 & s1 & H1).
    + intros o ->. apply Hone. now left.
    + auto.
    + apply (IH k1 r1 s1); auto.
      * intros o H. apply Hone. now right.
      * intros i o p H. destruct (calls_made _ _ _ E1 _ _ _ H) as [(p' & H')| ->]; eauto.
        apply Hone. now left.
Qed.

Theorem locked_linearizable ls k : krun ob (start sinit) ls = Some k ->
  (forall o, In (LInvoke o) ls -> (length (o_queries ob o) <= 1)%nat) ->
  linearizable step sinit (k_hist k).
Proof.
  intros E Hone. destruct (I_krun ls _ _ _ _ I_start E Hone) as (r & s0 & Hi).
  - intros [|i]; discriminate.
  - exists r. split; [|split; [|split; [|split; [|split]]]].
    + change (map (fun t => snd (fst t)) r) with (ops_of r). now rewrite (i_run _ _ _ Hi).
    + apply Hi.
    + intros i o x Hin. apply Hi. eapply i_calls_of; eauto.
    + apply Hi.
    + apply Hi.
    + intros a i x j o x' B A Hin. eapply i_rt; eauto.
Qed.

End Laws.
