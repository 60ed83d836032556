(** Calls that take one lock are all answered, whatever the scheduler does. *)
From Coq Require Import PeanoNat Wf_nat.
From Verif Require Import Base Locks LocksSpec LocksProofs LocksLive.

Section Progress.
Context {S L Q R : Type}.
Variable ob : obj S L Q R.
Notation conf := (conf (S := S) (L := L) (Q := Q) (R := R)).
Notation call := (call (L := L) (Q := Q) (R := R)).
Notation pc := (pc (L := L) (Q := Q) (R := R)).
Notation sub := (sub (R := R)).

(** [clear]: the store can be written.  [jam]: answers after which that may no longer
    be so. *)
Variable clear : S -> Prop.
Variable jam : op -> out -> Prop.
Variable wsize : L -> S -> nat.
Variable rsize : R -> S -> nat.

Record live : Prop := {
  lv_some : forall o s, o_direct ob o s = None -> o_writes ob o = None -> o_queries ob o <> [];
  lv_write : forall o l s, clear s -> o_writes ob o = Some l ->
    exists s' x b, wruns ob l s s' x b /\ (jam o x \/ (b = true /\ clear s'));
  lv_wsize : forall l s s' l', o_wstep ob l s = WMore s' l' -> (wsize l' s' < wsize l s)%nat;
  lv_rskip : forall r s r', o_rstep ob r s = RSkip r' -> (rsize r' s < rsize r s)%nat;
  lv_rsend : forall r s x r', o_rstep ob r s = RSend x r' -> (rsize r' s < rsize r s)%nat
}.
Hypothesis laws : live.

(** * What is left to do *)
Definition phase (c : call) : nat :=
  match c_pc c with
  | CNew => 10 + 3 * length (o_queries ob (c_op c))
  | CWantW => 6 | CWaitW => 5 | CWrite _ => 4 | CWritten _ _ => 3 | CAfter _ => 2
  | CWantR _ _ todo => 6 + 3 * length todo
  | CBlocked _ _ todo => 5 + 3 * length todo
  | CHave _ _ todo => 4 + 3 * length todo
  | CRead _ => 1
  | CDone => 0
  end.
Definition subsize (s : S) (u : sub) : nat :=
  match u with SRun r _ => Datatypes.S (rsize r s) | SEnd _ _ => 0 end.
Definition size (s : S) (c : call) : nat :=
  match c_pc c with
  | CWrite l => wsize l s
  | CWantR subs _ _ | CBlocked subs _ _ | CHave subs _ _ | CRead subs => list_sum (map (subsize s) subs)
  | _ => 0
  end.
Definition phases (k : conf) : nat := list_sum (map phase (k_calls k)).
Definition sizes (k : conf) : nat := list_sum (map (size (k_shared k)) (k_calls k)).
Definition smaller (k' k : conf) : Prop :=
  (phases k' < phases k)%nat \/ (phases k' = phases k /\ (sizes k' < sizes k)%nat).

Lemma smaller_wf : well_founded smaller.
Proof.
  assert (G : forall n m k, (phases k < n)%nat \/ (phases k = n /\ (sizes k < m)%nat) -> Acc smaller k).
  { induction n as [n IHn] using lt_wf_ind. induction m as [m IHm] using lt_wf_ind. intros k H.
    constructor. intros k' Hk. destruct H as [H|[H1 H2]].
    - destruct Hk as [Hk|[Hk Hs]]; apply (IHn (phases k) H (sizes k)).
      + left. exact Hk.
      + right. split; [exact Hk|]. exact Hs.
    - destruct Hk as [Hk|[Hk Hs]].
      + apply (IHn (phases k') ltac:(lia) (Datatypes.S (sizes k'))). right. lia.
      + apply (IHm (sizes k) H2). right. lia. }
  intros k. apply (G (Datatypes.S (phases k)) 0%nat). left. lia.
Qed.

Local Ltac un := unfold note, set_pc, set_lock, set_shared; cbn [k_shared k_readers k_writer k_calls k_hist].

Lemma phase_set k i o p p' n w sh h : nth_error (k_calls k) i = Some (mk_call o p) ->
  (phase (mk_call o p') < phase (mk_call o p))%nat ->
  smaller (mk_conf sh n w (upd i (mk_call o p') (k_calls k)) h) k.
Proof.
  intros Hn H. left. unfold phases. cbn [k_calls].
  pose proof (sum_upd phase _ _ (mk_call o p') _ Hn). lia.
Qed.

Lemma sub_set k i o p subs consumer back j u u' n h : nth_error (k_calls k) i = Some (mk_call o p) ->
  subs_of p = Some (subs, consumer, back) -> nth_error subs j = Some u ->
  (subsize (k_shared k) u' < subsize (k_shared k) u)%nat ->
  smaller (mk_conf (k_shared k) n (k_writer k) (upd i (mk_call o (back (upd j u' subs))) (k_calls k)) h) k.
Proof.
  intros Hn Hs Hu H. right. unfold phases, sizes. cbn [k_calls k_shared].
  pose proof (sum_upd phase _ _ (mk_call o (back (upd j u' subs))) _ Hn) as E1.
  pose proof (sum_upd (size (k_shared k)) _ _ (mk_call o (back (upd j u' subs))) _ Hn) as E2.
  pose proof (sum_upd (subsize (k_shared k)) _ _ u' _ Hu) as E3.
  destruct p; cbn in Hs; try discriminate; injection Hs as <- <- <-;
    unfold phase in E1; cbn [c_pc c_op] in E1; unfold size in E2; cbn [c_pc c_op] in E2;
    (split; [unfold phase; lia|unfold size; lia]).
Qed.

Lemma idle_size s s' (c : call) : held c = 0%nat -> (forall l, c_pc c <> CWrite l) -> size s c = size s' c.
Proof.
  assert (G : forall subs, list_sum (map (@running R) subs) = 0%nat ->
    list_sum (map (subsize s) subs) = list_sum (map (subsize s') subs)).
  { induction subs as [|[r l|l b] subs IH]; cbn; auto; discriminate. }
  destruct c as [o p]. unfold held, size. cbn. intros H N. destruct p; auto.
  - now destruct (N l).
  - discriminate.
Qed.

Lemma step_smaller k lb k' : J k -> internal lb -> kstep ob k lb = Some k' -> smaller k' k.
Proof.
  intros Hj Hi E. destruct lb as [o|i|i j|i j told]; cbn in E; [destruct Hi| | | ].
  - destruct (nth_error (k_calls k) i) as [[o p]|] eqn:Hn; [|discriminate].
    unfold step_call in E. cbn [c_op c_pc] in E. destruct p.
    + destruct (o_direct ob o (k_shared k)).
      * injection E as <-. un; eapply phase_set; eauto; unfold phase; cbn; lia.
      * destruct (o_writes ob o).
        -- injection E as <-. un; eapply phase_set; eauto; unfold phase; cbn; lia.
        -- destruct (o_queries ob o) eqn:Eq; [discriminate|]. injection E as <-. un; eapply phase_set; eauto.
           unfold phase; cbn [c_pc c_op]; rewrite Eq; cbn; lia.
    + destruct (k_writer k); [discriminate|]. injection E as <-. un; eapply phase_set; eauto; unfold phase; cbn; lia.
    + destruct (k_readers k); [|discriminate]. destruct (o_writes ob o); [|discriminate].
      injection E as <-. un; eapply phase_set; eauto; unfold phase; cbn; lia.
    + destruct (o_wstep ob l (k_shared k)) as [s' l'|s' x b|] eqn:Ew; [| |discriminate]; injection E as <-.
      * right. unfold phases, sizes, set_pc, set_shared. cbn [k_calls k_shared k_readers k_writer k_hist].
        pose proof (sum_upd phase _ _ (mk_call o (CWrite l')) _ Hn) as E1. unfold phase in E1 at 2 4. cbn [c_pc] in E1.
        split; [lia|].
        pose proof (j_w1 _ Hj _ _ _ true Hn eq_refl) as Hw. pose proof (j_w2 _ Hj _ Hw) as Hr.
        rewrite (j_count _ Hj) in Hr.
        assert (Z : forall j c, nth_error (k_calls k) j = Some c -> j <> i -> size s' c = size (k_shared k) c).
        { intros j c Hc Hne. apply idle_size.
          - pose proof (sum_ge held _ _ _ Hc). unfold total in Hr. lia.
          - intros l1 H1. destruct c as [oc pcc]. cbn in H1. subst.
            pose proof (j_w1 _ Hj _ _ _ true Hc eq_refl). congruence. }
        pose proof (lv_wsize laws _ _ _ _ Ew) as Hs.
        clear -Hn Z Hs. revert i Hn Z. induction (k_calls k) as [|c cs IH]; intros [|i] Hn Z; cbn in *; try discriminate.
        -- injection Hn as ->. unfold list_sum. cbn.
           change (size (k_shared k) {| c_op := o; c_pc := CWrite l |}) with (wsize l (k_shared k)).
           assert (map (size s') cs = map (size (k_shared k)) cs) as ->; [|lia].
           clear -Z. assert (Z' : forall j c, nth_error cs j = Some c -> size s' c = size (k_shared k) c).
           { intros j c H. apply (Z (Datatypes.S j) c); auto. }
           clear Z. induction cs as [|c cs IH]; cbn; auto. f_equal; [now apply (Z' 0%nat)|].
           apply IH. intros j c' H. now apply (Z' (Datatypes.S j)).
        -- specialize (IH i Hn). unfold list_sum in *. cbn [fold_right map].
           rewrite (Z 0%nat c) by auto. apply Nat.add_lt_mono_l. apply IH.
           intros j c' H N. apply (Z (Datatypes.S j) c'); auto.
      * un; eapply phase_set; eauto.
    + destruct release; injection E as <-;  [|un; eapply phase_set; eauto; unfold phase; cbn; lia].
      left. unfold phases, set_pc, unlock. cbn [k_calls].
      assert (Hn' : nth_error (map let_in (k_calls k)) i = Some (mk_call o (CWritten x true)))
        by (rewrite nth_let_in, Hn; reflexivity).
      pose proof (sum_upd phase _ _ (mk_call o (CAfter x)) _ Hn') as E1. unfold phase in E1 at 2 4. cbn [c_pc] in E1.
      assert (list_sum (map phase (map let_in (k_calls k))) <= list_sum (map phase (k_calls k)))%nat; [|lia].
      clear. unfold list_sum. induction (k_calls k) as [|[o p] l IH]; cbn [map fold_right]; auto.
      apply Nat.add_le_mono; auto. destruct p; auto. unfold phase; cbn; lia.
    + injection E as <-. un; eapply phase_set; eauto; unfold phase; cbn; lia.
    + destruct (k_writer k); injection E as <-; un; eapply phase_set; eauto; unfold phase; cbn; lia.
    + discriminate.
    + destruct (o_rbegin ob q (k_shared k)) as [r|y].
      * destruct subs, todo; injection E as <-; un; eapply phase_set; eauto; unfold phase; cbn; lia.
      * destruct subs; [|discriminate]. destruct todo; [|discriminate]. injection E as <-.
        un; eapply phase_set; eauto; unfold phase; cbn; lia.
    + destruct (forallb ended subs); [|discriminate]. injection E as <-. un; eapply phase_set; eauto.
    + discriminate.
  - destruct (nth_error (k_calls k) i) as [[o p]|] eqn:Hn; [|discriminate].
    unfold step_sub in E. cbn [c_op c_pc] in E.
    destruct (subs_of p) as [[[subs consumer] back]|] eqn:Hs; [|discriminate].
    destruct (nth_error subs j) as [[rd sent|]|] eqn:Hsub; try discriminate.
    destruct (o_rstep ob rd (k_shared k)) as [r1|y r1|] eqn:Er.
    + injection E as <-. eapply sub_set; eauto. cbn. apply (lv_rskip laws) in Er. lia.
    + destruct consumer; [|discriminate]. injection E as <-. eapply sub_set; eauto. cbn. apply (lv_rsend laws) in Er. lia.
    + injection E as <-. unfold set_pc, set_lock. cbn [k_shared k_readers k_writer k_calls k_hist].
      eapply sub_set; eauto. cbn. lia.
  - destruct (nth_error (k_calls k) i) as [[o p]|] eqn:Hn; [|discriminate].
    unfold cancel_sub in E. cbn [c_op c_pc] in E.
    destruct (subs_of p) as [[[subs consumer] back]|] eqn:Hs; [|discriminate].
    destruct (nth_error subs j) as [[rd sent|]|] eqn:Hsub; try discriminate.
    destruct (o_rstep ob rd (k_shared k)) as [r1|[y|e] r1|]; try discriminate.
    destruct (implb told consumer); [|discriminate]. injection E as <-.
    unfold set_pc, set_lock. cbn [k_shared k_readers k_writer k_calls k_hist].
    eapply sub_set; eauto. cbn. lia.
Qed.

(** * The invariant *)
Definition okc (w : option (nat * bool)) (s : S) (o : op) (p : pc) : Prop :=
  match p with
  | CWantW | CWaitW => o_writes ob o <> None
  | CWrite l => exists s' x b, wruns ob l s s' x b /\ (jam o x \/ (b = true /\ clear s'))
  | CWritten x b => jam o x \/ (b = true /\ clear s)
  | CWantR subs _ todo | CHave subs _ todo => subs = [] /\ todo = []
  | CBlocked subs _ todo => subs = [] /\ todo = [] /\ w <> None
  | _ => True
  end.

Record good (k : conf) : Prop := {
  g_w : forall i b, k_writer k = Some (i, b) -> exists o p, nth_error (k_calls k) i = Some (mk_call o p) /\ wplace p = Some b;
  g_clear : (forall i, k_writer k <> Some (i, true)) -> clear (k_shared k);
  g_calls : forall i o p, nth_error (k_calls k) i = Some (mk_call o p) -> okc (k_writer k) (k_shared k) o p
}.

(** A call got, or is about to get, an answer after which the store may be jammed. *)
Definition jam_answered (h : list act) : Prop :=
  exists i o x, In (Inv i o) h /\ In (Ret i x) h /\ jam o x.
Definition doomed (k : conf) : Prop :=
  jam_answered (k_hist k) \/
  exists i o x p, nth_error (k_calls k) i = Some (mk_call o p) /\ jam o x /\ (p = CAfter x \/ exists b, p = CWritten x b).

Record K (k : conf) : Prop := {
  kk_j : J k;
  kk_inv : forall i o p, nth_error (k_calls k) i = Some (mk_call o p) -> In (Inv i o) (k_hist k);
  kk_made : forall i o, In (Inv i o) (k_hist k) -> nth_error (k_calls k) i <> None;
  kk_done : forall i o, nth_error (k_calls k) i = Some (mk_call o CDone) -> answered i (k_hist k);
  kk_one : forall i o p, nth_error (k_calls k) i = Some (mk_call o p) -> (length (o_queries ob o) <= 1)%nat;
  kk_fate : doomed k \/ good k
}.

Lemma K_start s : clear s -> K (start s).
Proof.
  intros Hs. split.
  - apply J_start.
  - intros [|i]; discriminate.
  - cbn. tauto.
  - intros [|i]; discriminate.
  - intros [|i]; discriminate.
  - right. split; cbn; auto; try discriminate. intros [|i]; discriminate.
Qed.

Lemma answered_app i h a : answered i h -> answered i (h ++ [a]).
Proof. intros (x & H). exists x. rewrite !in_app_iff. tauto. Qed.
Lemma answered_last i h x : answered i (h ++ [Ret i x]).
Proof. exists x. rewrite !in_app_iff. cbn. tauto. Qed.
Lemma jam_answered_app h a : jam_answered h -> jam_answered (h ++ [a]).
Proof. intros (i & o & x & H1 & H2 & H3). exists i, o, x. rewrite !in_app_iff. tauto. Qed.

(** The bookkeeping part of a step that moves one call. *)
Lemma keep_book (k : conf) i o p p' (sh : S) n w h : K k -> nth_error (k_calls k) i = Some (mk_call o p) ->
  (h = k_hist k /\ p' <> CDone \/ exists a, h = k_hist k ++ [a] /\ (forall j oj, a <> Inv j oj) /\ (p' = CDone -> answered i h)) ->
  let k' := mk_conf sh n w (upd i (mk_call o p') (k_calls k)) h in
  (forall i o p, nth_error (k_calls k') i = Some (mk_call o p) -> In (Inv i o) (k_hist k'))
  /\ (forall i o, In (Inv i o) (k_hist k') -> nth_error (k_calls k') i <> None)
  /\ (forall i o, nth_error (k_calls k') i = Some (mk_call o CDone) -> answered i (k_hist k'))
  /\ (forall i o p, nth_error (k_calls k') i = Some (mk_call o p) -> (length (o_queries ob o) <= 1)%nat).
Proof.
  intros Hk Hn Hh. cbn. split; [|split; [|split]].
  - intros j oj pj. rewrite (nth_upd _ _ _ _ _ Hn). intros H.
    assert (Hin : In (Inv j oj) (k_hist k)).
    { destruct (Nat.eqb_spec j i) as [->|N]; [injection H as <- <-|]; eapply kk_inv; eauto. }
    destruct Hh as [[-> _]|(a & -> & _)]; auto. rewrite in_app_iff. auto.
  - intros j oj H.
    assert (Hin : In (Inv j oj) (k_hist k)).
    { destruct Hh as [[-> _]|(a & -> & Ha & _)]; auto. apply in_app_iff in H as [H|[H|[]]]; auto. now apply Ha in H. }
    apply (kk_made _ Hk) in Hin. rewrite (nth_upd _ _ _ _ _ Hn). destruct (Nat.eqb j i); auto. discriminate.
  - intros j oj. rewrite (nth_upd _ _ _ _ _ Hn). destruct (Nat.eqb_spec j i) as [->|N].
    + intros [= <- ->]. destruct Hh as [[_ Hh]|(a & _ & _ & Hh)]; [congruence|auto].
    + intros H. apply (kk_done _ Hk) in H. destruct Hh as [[-> _]|(a & -> & _)]; auto. now apply answered_app.
  - intros j oj pj. rewrite (nth_upd _ _ _ _ _ Hn). destruct (Nat.eqb_spec j i) as [->|N].
    + intros [= <- _]. eapply kk_one; eauto.
    + apply Hk.
Qed.

Definition tells (p : pc) (x : out) : Prop := p = CAfter x \/ exists b, p = CWritten x b.

Lemma keep_doom (k : conf) i o p p' (sh : S) n w h : K k -> nth_error (k_calls k) i = Some (mk_call o p) ->
  (h = k_hist k \/ exists a, h = k_hist k ++ [a]) ->
  (forall x, tells p x -> tells p' x \/ In (Ret i x) h) ->
  doomed k -> doomed (mk_conf sh n w (upd i (mk_call o p') (k_calls k)) h).
Proof.
  intros Hk Hn Hh Ht [Hd|(j & oj & x & pj & Hj & Hx & Hp)].
  - left. cbn. destruct Hh as [->|(a & ->)]; auto. now apply jam_answered_app.
  - destruct (Nat.eq_dec j i) as [->|N].
    + rewrite Hn in Hj. injection Hj as <- <-. destruct (Ht _ Hp) as [H|H].
      * right. exists i, o, x, p'. cbn. rewrite (nth_upd_eq _ _ _ _ Hn). auto.
      * left. exists i, o, x. cbn. split; [|auto]. pose proof (kk_inv _ Hk _ _ _ Hn).
        destruct Hh as [->|(a & ->)]; auto. rewrite in_app_iff. auto.
    + right. exists j, oj, x, pj. cbn. rewrite nth_upd_neq by auto. auto.
Qed.

Lemma okc_other w s o p w' s' : okc w s o p -> wplace p <> Some true -> (w <> None -> w' <> None) -> okc w' s' o p.
Proof. destruct p; cbn; auto; try congruence. intuition. Qed.

(** A step that concerns no writer. *)
Lemma keep_good k i o p p' n h : good k -> nth_error (k_calls k) i = Some (mk_call o p) ->
  okc (k_writer k) (k_shared k) o p' -> wplace p' = wplace p ->
  good (mk_conf (k_shared k) n (k_writer k) (upd i (mk_call o p') (k_calls k)) h).
Proof.
  intros Hg Hn Ho Hw. split; cbn.
  - intros j b Hjb. destruct (g_w _ Hg _ _ Hjb) as (oj & pj & H1 & H2).
    rewrite (nth_upd _ _ _ _ _ Hn). destruct (Nat.eqb_spec j i) as [->|N]; eauto.
    exists o, p'. split; auto. congruence.
  - apply Hg.
  - intros j oj pj. rewrite (nth_upd _ _ _ _ _ Hn). destruct (Nat.eqb_spec j i) as [->|N].
    + now intros [= <- <-].
    + apply Hg.
Qed.

(** A step of a call that announced itself as writer. *)
Lemma keep_good_writer k i o p p' n h sh b : J k -> good k -> nth_error (k_calls k) i = Some (mk_call o p) ->
  (k_writer k = None \/ exists b', k_writer k = Some (i, b')) -> wplace p' = Some b ->
  okc (Some (i, b)) sh o p' -> (b = false -> clear sh) ->
  good (mk_conf sh n (Some (i, b)) (upd i (mk_call o p') (k_calls k)) h).
Proof.
  intros Hj Hg Hn Hw Hp Ho Hc. split; cbn.
  - intros j b' [= <- <-]. exists o, p'. now rewrite (nth_upd_eq _ _ _ _ Hn).
  - intros H. apply Hc. destruct b; auto. now destruct (H i).
  - intros j oj pj. rewrite (nth_upd _ _ _ _ _ Hn). destruct (Nat.eqb_spec j i) as [->|N].
    + now intros [= <- <-].
    + intros H. pose proof (g_calls _ Hg _ _ _ H) as Hok. eapply okc_other; [exact Hok| |discriminate].
      intros E. pose proof (j_w1 _ Hj _ _ _ _ H E). destruct Hw as [Hw|(b' & Hw)]; congruence.
Qed.

(** A step of a reading goroutine. *)
Lemma K_sub k i o p subs consumer back j u l n : K k -> nth_error (k_calls k) i = Some (mk_call o p) ->
  subs_of p = Some (subs, consumer, back) -> nth_error subs j = Some u ->
  J (mk_conf (k_shared k) n (k_writer k) (upd i (mk_call o (back l)) (k_calls k)) (k_hist k)) ->
  K (mk_conf (k_shared k) n (k_writer k) (upd i (mk_call o (back l)) (k_calls k)) (k_hist k)).
Proof.
  intros Hk Hn Hs Hu HJ.
  destruct (keep_book k i o p (back l) (k_shared k) n (k_writer k) (k_hist k) Hk Hn) as (B1 & B2 & B3 & B4).
  { left. split; auto. destruct p; cbn in Hs; try discriminate; injection Hs as <- <- <-; discriminate. }
  split; auto. destruct (kk_fate _ Hk) as [Hd|Hg].
  - left. eapply keep_doom; eauto. intros x [->|(b & ->)]; discriminate.
  - right. pose proof (g_calls _ Hg _ _ _ Hn) as Hok.
    destruct p; cbn in Hs; try discriminate; injection Hs as <- <- <-; cbn in Hok;
      try (destruct Hok as (-> & _); now destruct j).
    eapply keep_good; eauto; exact Logic.I.
Qed.

Lemma wruns_inv l s s' x b : wruns ob l s s' x b ->
  o_wstep ob l s = WDone s' x b \/ exists s1 l1, o_wstep ob l s = WMore s1 l1 /\ wruns ob l1 s1 s' x b.
Proof. intros H. inversion H; subst; eauto. Qed.

Lemma K_step k lb k' : K k -> (forall o, lb = LInvoke o -> (length (o_queries ob o) <= 1)%nat) ->
  kstep ob k lb = Some k' -> K k'.
Proof.
  intros Hk Hone E.
  assert (Hj' : J k') by (eapply J_step; [apply Hk|exact E]).
  pose proof (kk_j _ Hk) as Hj.
  destruct lb as [o|i|i j|i j told]; cbn in E.
  - injection E as <-. split; auto; cbn.
    + intros i oi p. rewrite nth_snoc. rewrite in_app_iff. destruct (Nat.eqb_spec i (length (k_calls k))) as [->|N].
      * intros [= <- _]. right. now left.
      * intros H. left. eapply kk_inv; eauto.
    + intros i oi. rewrite in_app_iff, nth_snoc. intros [H|[H|[]]].
      * apply (kk_made _ Hk) in H. destruct (Nat.eqb i _); auto. discriminate.
      * injection H as <- <-. rewrite Nat.eqb_refl. discriminate.
    + intros i oi. rewrite nth_snoc. destruct (Nat.eqb i _); [discriminate|].
      intros H. apply answered_app. eapply kk_done; eauto.
    + intros i oi p. rewrite nth_snoc. destruct (Nat.eqb i _); [intros [= <- _]; now apply Hone|apply Hk].
    + assert (Old : forall i c, nth_error (k_calls k) i = Some c -> nth_error (k_calls k ++ [mk_call o CNew]) i = Some c).
      { intros i c H. rewrite nth_error_app1; auto. apply nth_error_Some. congruence. }
      destruct (kk_fate _ Hk) as [[Hd|(i & oi & x & p & H1 & H2 & H3)]|Hg].
      * left. left. now apply jam_answered_app.
      * left. right. exists i, oi, x, p. cbn. auto.
      * right. split; cbn.
        -- intros i b H. destruct (g_w _ Hg _ _ H) as (oi & p & H1 & H2). exists oi, p. auto.
        -- apply Hg.
        -- intros i oi p. rewrite nth_snoc. destruct (Nat.eqb i _); [intros [= <- <-]; exact Logic.I|apply Hg].
  - destruct (nth_error (k_calls k) i) as [[o p]|] eqn:Hn; [|discriminate].
    unfold step_call in E. cbn [c_op c_pc] in E.
    (* a step that moves call [i] from [p] to [p'] *)
    assert (Go : forall p' sh n w h,
      k' = mk_conf sh n w (upd i (mk_call o p') (k_calls k)) h ->
      (h = k_hist k /\ p' <> CDone \/ exists a, h = k_hist k ++ [a] /\ (forall j oj, a <> Inv j oj) /\ (p' = CDone -> answered i h)) ->
      (forall x, tells p x -> tells p' x \/ In (Ret i x) h) ->
      (good k -> doomed k' \/ good k') -> K k').
    { intros p' sh n w h Ek Hh Ht Hg. subst k'.
      destruct (keep_book k i o p p' sh n w h Hk Hn Hh) as (B1 & B2 & B3 & B4).
      split; auto. destruct (kk_fate _ Hk) as [Hd|Hgood]; auto.
      left. eapply keep_doom; eauto. destruct Hh as [[-> _]|(a & -> & _)]; eauto. }
    destruct p.
    + destruct (o_direct ob o (k_shared k)) eqn:Ed.
      * injection E as <-. eapply Go; [reflexivity| | |].
        -- right. eexists. split; [reflexivity|split; [discriminate|]]. intros _. apply answered_last.
        -- intros y [?|(? & ?)]; discriminate.
        -- right. un; eapply keep_good; eauto; exact Logic.I.
      * destruct (o_writes ob o) eqn:Ew.
        -- injection E as <-. eapply Go; [reflexivity|left; split; [reflexivity|discriminate]| |].
           ++ intros y [?|(? & ?)]; discriminate.
           ++ right. un; eapply keep_good; eauto. cbn. congruence.
        -- destruct (o_queries ob o) as [|q todo] eqn:Eq; [discriminate|].
           injection E as <-. eapply Go; [reflexivity|left; split; [reflexivity|discriminate]| |].
           ++ intros y [?|(? & ?)]; discriminate.
           ++ right. un; eapply keep_good; eauto. cbn. split; auto.
              pose proof (kk_one _ Hk _ _ _ Hn) as Hl. rewrite Eq in Hl. destruct todo; auto. cbn in Hl. lia.
    + destruct (k_writer k) eqn:Hw; [discriminate|]. injection E as <-.
      eapply Go; [reflexivity|left; split; [reflexivity|discriminate]| |].
      * intros y [?|(? & ?)]; discriminate.
      * intros Hg. right. un; eapply keep_good_writer; eauto.
        -- apply (g_calls _ Hg _ _ _ Hn).
        -- intros _. apply (g_clear _ Hg). congruence.
    + destruct (k_readers k) eqn:Hr; [|discriminate]. destruct (o_writes ob o) eqn:Ew; [|discriminate].
      injection E as <-.
      eapply Go; [reflexivity|left; split; [reflexivity|discriminate]| |].
      * intros y [?|(? & ?)]; discriminate.
      * intros Hg. right. cbn. pose proof (j_w1 _ Hj _ _ _ false Hn eq_refl) as Hw.
        un; eapply keep_good_writer; eauto; [|discriminate].
        cbn. apply (lv_write laws); auto. apply (g_clear _ Hg). intros j. rewrite Hw. discriminate.
    + pose proof (j_w1 _ Hj _ _ _ true Hn eq_refl) as Hw.
      destruct (o_wstep ob l (k_shared k)) as [s' l'|s' x b|] eqn:Es; [| |discriminate]; injection E as <-;
        (eapply Go; [reflexivity|left; split; [reflexivity|discriminate]| |]);
        try (intros y [?|(? & ?)]; discriminate);
        intros Hg; destruct (g_calls _ Hg _ _ _ Hn) as (s2 & y & b2 & Hr & Hx);
        apply wruns_inv in Hr as [Hr|(s1 & l1 & Hr & Hr')]; rewrite Es in Hr; try discriminate.
      * injection Hr as <- <-. right. un. rewrite Hw. eapply keep_good_writer; eauto; [|discriminate]. cbn. eauto.
      * injection Hr as <- <- <-. right. un. rewrite Hw. eapply keep_good_writer; eauto. discriminate.
    + pose proof (j_w1 _ Hj _ _ _ true Hn eq_refl) as Hw.
      destruct release; injection E as <-.
      * assert (Hn' : nth_error (map let_in (k_calls k)) i = Some (mk_call o (CWritten x true)))
          by (rewrite nth_let_in, Hn; reflexivity).
        assert (Let : forall j oj pj, nth_error (map let_in (k_calls k)) j = Some (mk_call oj pj) ->
           exists pj0, nth_error (k_calls k) j = Some (mk_call oj pj0) /\ (pj = CDone -> pj0 = CDone) /\
             (j <> i -> okc (k_writer k) (k_shared k) oj pj0 -> okc None (k_shared k) oj pj)).
        { intros j oj pj H. rewrite nth_let_in in H. destruct (nth_error (k_calls k) j) as [[o1 p1]|] eqn:Ej; [|discriminate].
          cbn in H. injection H as H. pose proof H as Hlet. apply let_in_cases in H as [-> H].
          exists p1. split; auto.
          destruct H as [(subs & q & todo & -> & ->)| ->]; (split; [congruence|]).
          - cbn. tauto.
          - intros Hne Hok. destruct p1; auto. cbn in *. destruct Hok as (? & ? & ?). discriminate Hlet. }
        assert (Own : forall q, nth_error (upd i (mk_call o (CAfter x)) (map let_in (k_calls k))) q
                        = if Nat.eqb q i then Some (mk_call o (CAfter x)) else nth_error (map let_in (k_calls k)) q)
          by (intros q; now apply nth_upd with (mk_call o (CWritten x true))).
        split; auto; cbn.
        -- intros j oj pj. rewrite Own. destruct (Nat.eqb_spec j i) as [->|N].
           ++ intros [= <- <-]. eapply kk_inv; eauto.
           ++ intros H. destruct (Let _ _ _ H) as (p0 & H0 & _). eapply kk_inv; eauto.
        -- intros j oj H. rewrite Own. destruct (Nat.eqb j i); [discriminate|]. rewrite nth_let_in.
           apply (kk_made _ Hk) in H. now destruct (nth_error (k_calls k) j).
        -- intros j oj. rewrite Own. destruct (Nat.eqb_spec j i) as [->|N]; [discriminate|].
           intros H. destruct (Let _ _ _ H) as (p0 & H0 & Hd & _). rewrite (Hd eq_refl) in H0. eapply kk_done; eauto.
        -- intros j oj pj. rewrite Own. destruct (Nat.eqb_spec j i) as [->|N].
           ++ intros [= <- <-]. eapply kk_one; eauto.
           ++ intros H. destruct (Let _ _ _ H) as (p0 & H0 & _). eapply kk_one; eauto.
        -- destruct (kk_fate _ Hk) as [[Hd|(j & oj & y & pj & H1 & H2 & H3)]|Hg].
           ++ left. now left.
           ++ left. right. destruct (Nat.eq_dec j i) as [->|N].
              ** rewrite Hn in H1. injection H1 as <- <-. exists i, o, y, (CAfter x). cbn. rewrite Own, Nat.eqb_refl.
                 split; auto. split; auto. destruct H3 as [?|(b & H3)]; [discriminate|]. injection H3 as <- _. auto.
              ** exists j, oj, y, pj. cbn. rewrite Own. destruct (Nat.eqb_spec j i); [congruence|].
                 rewrite nth_let_in, H1. destruct H3 as [->|(b & ->)]; cbn; eauto 10.
           ++ destruct (g_calls _ Hg _ _ _ Hn) as [Hjam|[_ Hc]].
              ** left. right. exists i, o, x, (CAfter x). cbn. rewrite Own, Nat.eqb_refl. auto.
              ** right. split; cbn; auto; try discriminate.
                 intros j oj pj. rewrite Own. destruct (Nat.eqb_spec j i) as [->|N].
                 --- now intros [= <- <-].
                 --- intros H. destruct (Let _ _ _ H) as (p0 & H0 & _ & Hok). apply Hok; auto. eapply g_calls; eauto.
      * eapply Go; [reflexivity| | |].
        -- right. eexists. split; [reflexivity|split; [discriminate|]]. intros _. apply answered_last.
        -- intros y [?|(b & H)]; [discriminate|]. injection H as <- <-. right. rewrite in_app_iff. right. now left.
        -- intros Hg. destruct (g_calls _ Hg _ _ _ Hn) as [Hjam|[Hf _]]; [|discriminate].
           left. left. exists i, o, x. cbn. rewrite !in_app_iff. cbn.
           pose proof (kk_inv _ Hk _ _ _ Hn). auto.
    + injection E as <-. eapply Go; [reflexivity| | |].
      * right. eexists. split; [reflexivity|split; [discriminate|]]. intros _. apply answered_last.
      * intros y [H|(b & H)]; [|discriminate]. injection H as <-. right. rewrite in_app_iff. right. now left.
      * intros Hg. right. un; eapply keep_good; eauto; exact Logic.I.
    + destruct (k_writer k) eqn:Hw; injection E as <-;
        (eapply Go; [reflexivity|left; split; [reflexivity|discriminate]| |]);
        try (intros y [?|(? & ?)]; discriminate);
        intros Hg; right; pose proof (g_calls _ Hg _ _ _ Hn) as [-> ->].
      * un; eapply keep_good; eauto. cbn. rewrite Hw. split; auto. split; auto. discriminate.
      * unfold set_pc, set_lock. cbn [k_shared k_readers k_writer k_calls k_hist]. rewrite <- Hw at 1.
        un; eapply keep_good; eauto. cbn. auto.
    + discriminate.
    + destruct (o_rbegin ob q (k_shared k)) as [r|y] eqn:Er.
      * assert (exists p', k' = set_pc i o p' k /\ (p' = CRead (subs ++ [SRun r []]) \/
            exists q' todo', todo = q' :: todo' /\ p' = CWantR (subs ++ [SRun r []]) q' todo')) as (p' & -> & Hp).
        { destruct subs, todo; injection E as <-; eexists; (split; [reflexivity|]); eauto. }
        eapply Go; [reflexivity|left; split; [reflexivity|]| |].
        -- destruct Hp as [->|(? & ? & _ & ->)]; discriminate.
        -- intros y [?|(? & ?)]; discriminate.
        -- intros Hg. right. pose proof (g_calls _ Hg _ _ _ Hn) as [-> ->].
           destruct Hp as [->|(? & ? & ? & _)]; [|discriminate]. un; eapply keep_good; eauto; exact Logic.I.
      * destruct subs; [|discriminate]. destruct todo; [|discriminate]. injection E as <-.
        eapply Go; [reflexivity|left; split; [reflexivity|discriminate]| |].
        -- intros z [?|(? & ?)]; discriminate.
        -- intros Hg. right. un; eapply keep_good; eauto; exact Logic.I.
    + destruct (forallb ended subs); [|discriminate]. injection E as <-.
      eapply Go; [reflexivity| | |].
      * right. eexists. split; [reflexivity|split; [destruct (existsb was_cut subs); discriminate|]]. intros _. cbn.
        destruct (existsb was_cut subs); [|apply answered_last]. eexists. right. rewrite in_app_iff. right. now left.
      * intros y [?|(? & ?)]; discriminate.
      * intros Hg. right. un; eapply keep_good; eauto; exact Logic.I.
    + discriminate.
  - destruct (nth_error (k_calls k) i) as [[o p]|] eqn:Hn; [|discriminate].
    unfold step_sub in E. cbn [c_op c_pc] in E.
    destruct (subs_of p) as [[[subs consumer] back]|] eqn:Hs; [|discriminate].
    destruct (nth_error subs j) as [[rd sent|]|] eqn:Hsub; try discriminate.
    destruct (o_rstep ob rd (k_shared k)) as [r1|y r1|].
    + injection E as <-. un. eapply K_sub; eauto.
    + destruct consumer; [|discriminate]. injection E as <-. un. eapply K_sub; eauto.
    + injection E as <-. un. eapply K_sub; eauto.
  - destruct (nth_error (k_calls k) i) as [[o p]|] eqn:Hn; [|discriminate].
    unfold cancel_sub in E. cbn [c_op c_pc] in E.
    destruct (subs_of p) as [[[subs consumer] back]|] eqn:Hs; [|discriminate].
    destruct (nth_error subs j) as [[rd sent|]|] eqn:Hsub; try discriminate.
    destruct (o_rstep ob rd (k_shared k)) as [r1|[y|e] r1|]; try discriminate.
    destruct (implb told consumer); [|discriminate]. injection E as <-. un. eapply K_sub; eauto.
Qed.

Lemma K_krun ls : forall k k', K k -> (forall o, In (LInvoke o) ls -> (length (o_queries ob o) <= 1)%nat) ->
  krun ob k ls = Some k' -> K k'.
Proof.
  induction ls as [|lb ls IH]; intros k k' Hk Ho E; cbn in E.
  - now injection E as <-.
  - destruct (kstep ob k lb) as [k1|] eqn:E1; [|discriminate]. apply (IH k1); auto.
    + eapply K_step; eauto. intros o ->. apply Ho. now left.
    + intros o H. apply Ho. now right.
Qed.

(** * Somebody can always move *)
Lemma doomed_moves k : K k -> doomed k -> jam_answered (k_hist k) \/ exists lb k', internal lb /\ kstep ob k lb = Some k'.
Proof.
  intros Hk [Hd|(i & o & x & p & Hn & Hx & Hp)]; auto. right. exists (LStep i). cbn. rewrite Hn.
  destruct Hp as [->|(b & ->)]; cbn; eauto. destruct b; eauto.
Qed.

Lemma call_dec (l : list call) : (forall i c, nth_error l i = Some c -> c_pc c = CDone) \/
  exists i c, nth_error l i = Some c /\ c_pc c <> CDone.
Proof.
  induction l as [|[o p] l IH].
  - left. intros [|i]; discriminate.
  - assert (Hp : p = CDone \/ p <> CDone) by (destruct p; auto; right; discriminate).
    destruct Hp as [->|Hp]; [|right; exists 0%nat; eexists; split; [reflexivity|exact Hp]].
    destruct IH as [IH|(i & c & H1 & H2)].
    + left. intros [|i] c H; cbn in H; [now injection H as <-|eauto].
    + right. exists (Datatypes.S i), c. auto.
Qed.

(** What a call that cannot move by itself is waiting for. *)
Lemma move_or_wait k i o p : K k -> good k -> nth_error (k_calls k) i = Some (mk_call o p) -> p <> CDone ->
  (exists lb k', internal lb /\ kstep ob k lb = Some k') \/
  (held (mk_call o p) = 0%nat /\
   ((p = CWantW /\ exists w b, k_writer k = Some (w, b)) \/ (p = CWaitW /\ k_readers k <> 0%nat) \/ (wplace p = None /\ k_writer k <> None))).
Proof.
  intros Hk Hg Hn Hp. pose proof (g_calls _ Hg _ _ _ Hn) as Hok.
  assert (G : forall k', step_call ob k i (mk_call o p) = Some k' -> exists lb k', internal lb /\ kstep ob k lb = Some k').
  { intros k' E. exists (LStep i), k'. cbn. rewrite Hn. auto. }
  destruct p; cbn in G, Hok.
  - left. destruct (o_direct ob o (k_shared k)) eqn:Ed; [eauto|]. destruct (o_writes ob o) eqn:Ew; [eauto|].
    pose proof (lv_some laws _ _ Ed Ew). destruct (o_queries ob o); [congruence|eauto].
  - destruct (k_writer k) as [[w b]|] eqn:Hw; [|left; eauto]. right. split; auto. left. eauto.
  - destruct (k_readers k) eqn:Hr; [|right; split; auto; right; left; split; auto; discriminate].
    destruct (o_writes ob o); [left; eauto|congruence].
  - left. destruct Hok as (s' & x & b & Hr & _). apply wruns_inv in Hr as [Hr|(s1 & l1 & Hr & _)]; rewrite Hr in G; eauto.
  - left. destruct release; eauto.
  - left. eauto.
  - left. destruct (k_writer k); eauto.
  - destruct Hok as (-> & -> & Hw). right. split; auto.
  - left. destruct Hok as (-> & ->). destruct (o_rbegin ob q (k_shared k)); eauto.
  - left. destruct (forallb ended subs) eqn:He; [eauto|].
    assert (exists j r sent, nth_error subs j = Some (SRun r sent)) as (j & r & sent & Hj).
    { clear -He. induction subs as [|[r l|l b] subs IH]; cbn in He; [discriminate| |].
      - exists 0%nat, r, l. reflexivity.
      - destruct (IH He) as (j & r & sent & H). exists (Datatypes.S j), r, sent. auto. }
    exists (LSub i j). cbn. rewrite Hn. unfold step_sub. cbn. rewrite Hj.
    destruct (o_rstep ob r (k_shared k)); eauto.
  - congruence.
Qed.

Lemma waiting_only (l : list call) (P : nat -> op -> pc -> Prop) Moves :
  (forall i o p, nth_error l i = Some (mk_call o p) -> p <> CDone -> Moves \/ P i o p) ->
  Moves \/ (forall i o p, nth_error l i = Some (mk_call o p) -> p <> CDone -> P i o p).
Proof.
  revert P. induction l as [|[o p] l IH]; intros P H.
  - right. intros [|i]; discriminate.
  - destruct (IH (fun i => P (Datatypes.S i))) as [Hm|Hr]; [|auto|].
    + intros i o' p' Hn. apply (H (Datatypes.S i)). exact Hn.
    + assert (Hp : p = CDone \/ p <> CDone) by (destruct p; auto; right; discriminate).
      destruct Hp as [->|Hp].
      * right. intros [|i] o' p' Hn Hne; [injection Hn as <- <-; congruence|]. now apply Hr.
      * destruct (H 0%nat o p eq_refl Hp) as [Hm|H0]; auto. right.
        intros [|i] o' p' Hn Hne; [injection Hn as <- <-; auto|]. now apply Hr.
Qed.

Lemma someone_moves k : K k -> all_answered (k_hist k) \/ jam_answered (k_hist k) \/
  exists lb k', internal lb /\ kstep ob k lb = Some k'.
Proof.
  intros Hk. destruct (kk_fate _ Hk) as [Hd|Hg]; [right; now apply doomed_moves|].
  destruct (waiting_only (k_calls k) (fun i o p => held (mk_call o p) = 0%nat /\
     ((p = CWantW /\ exists w b, k_writer k = Some (w, b)) \/ (p = CWaitW /\ k_readers k <> 0%nat) \/ (wplace p = None /\ k_writer k <> None)))
     (exists lb k', internal lb /\ kstep ob k lb = Some k')) as [Hm|Hw].
  - intros i o p Hn Hp. now apply (move_or_wait k i o p Hk Hg).
  - auto.
  - destruct (call_dec (k_calls k)) as [Hd|(i & [o p] & Hn & Hp)].
    + left. intros i o Hi. destruct (nth_error (k_calls k) i) as [[o' p]|] eqn:Hn.
      * specialize (Hd _ _ Hn). cbn in Hd. subst. eapply kk_done; eauto.
      * now apply (kk_made _ Hk) in Hi.
    + exfalso. cbn in Hp.
      assert (Z : total (k_calls k) = 0%nat).
      { assert (Z : forall j c, nth_error (k_calls k) j = Some c -> held c = 0%nat).
        { intros j [oj pj] Hj. assert (Hp' : pj = CDone \/ pj <> CDone) by (destruct pj; auto; right; discriminate).
          destruct Hp' as [->|Hp']; [reflexivity|]. now apply (Hw j). }
        unfold total, list_sum. clear -Z. induction (k_calls k) as [|c l IH]; cbn; auto.
        rewrite (Z 0%nat c eq_refl), IH; auto. intros j c' H. now apply (Z (Datatypes.S j)). }
      rewrite <- (j_count _ (kk_j _ Hk)) in Z.
      assert (N : forall w b, k_writer k = Some (w, b) -> False).
      { intros w b Hkw. destruct (g_w _ Hg _ _ Hkw) as (ow & pw & H1 & H2).
        assert (pw <> CDone) by (intros ->; discriminate).
        destruct (Hw _ _ _ H1 H) as (_ & [(-> & _)|[(-> & Hr)|(Hn0 & _)]]); try discriminate; congruence. }
      destruct (Hw _ _ _ Hn Hp) as (_ & [(_ & w & b & H)|[(_ & H)|(_ & H)]]).
      * eauto.
      * congruence.
      * destruct (k_writer k) as [[w b]|]; [eauto|congruence].
Qed.

Lemma answers_inevitable ls k s : clear s -> krun ob (start s) ls = Some k ->
  (forall o, In (LInvoke o) ls -> (length (o_queries ob o) <= 1)%nat) ->
  inevitable ob (fun k => all_answered (k_hist k) \/ jam_answered (k_hist k)) k.
Proof.
  intros Hc E Ho. assert (Hk : K k) by (eapply K_krun; eauto; now apply K_start).
  clear E Ho. induction k as [k IH] using (well_founded_induction smaller_wf).
  destruct (someone_moves _ Hk) as [H|[H|H]].
  - apply in_now. auto.
  - apply in_now. auto.
  - destruct H as (lb & k' & Hi & E). apply in_step; [exists lb, k'; auto|].
    intros lb1 k1 Hi1 E1. apply IH.
    + eapply step_smaller; eauto. apply Hk.
    + eapply K_step; eauto. intros o ->. destruct Hi1.
Qed.

End Progress.
