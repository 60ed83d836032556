(** Property theorems about concurrent use of the stores (C27, C57, C58). *)
From Coq Require Import PeanoNat.
From Verif Require Import Base Core CoreProofs LogSpec LogProofs StoreSpec ToyCodec InMemory InMemoryProofs Properties_InMemory
  LevelDB LevelDBSpec LevelDBProofs LevelDBRun Properties_LevelDB
  Locks LocksSpec LocksProofs LocksLive LocksProgress LocksHeld LocksAnswers LocksStores LocksStoresProofs LocksStoresLive.

Lemma made_step {S L Q R} (ob : obj S L Q R) k lb k' : kstep ob k lb = Some k' ->
  made (k_hist k') = made (k_hist k) ++ match lb with LInvoke o => [o] | _ => [] end.
Proof.
  unfold made. destruct lb as [o|i|i j|i j told]; cbn [kstep]; intros E.
  - injection E as <-. cbn. now rewrite flat_map_app.
  - rewrite app_nil_r. destruct (nth_error (k_calls k) i) as [[o p]|]; [|discriminate]. unfold step_call in E. cbn [c_op c_pc] in E.
    repeat match type of E with
    | context [match ?x with _ => _ end] => destruct x; try discriminate
    end; injection E as <-; cbn; try rewrite flat_map_app; cbn; try rewrite app_nil_r; reflexivity.
  - rewrite app_nil_r. destruct (nth_error (k_calls k) i) as [[o p]|]; [|discriminate]. unfold step_sub in E.
    repeat match type of E with
    | context [match ?x with _ => _ end] => destruct x; try discriminate
    end; injection E as <-; reflexivity.
  - rewrite app_nil_r. destruct (nth_error (k_calls k) i) as [[o p]|]; [|discriminate]. unfold cancel_sub in E.
    repeat match type of E with
    | context [match ?x with _ => _ end] => destruct x; try discriminate
    end; injection E as <-; reflexivity.
Qed.

Lemma made_run {S L Q R} (ob : obj S L Q R) ls : forall k k' o, krun ob k ls = Some k' ->
  In (LInvoke o) ls \/ In o (made (k_hist k)) -> In o (made (k_hist k')).
Proof.
  induction ls as [|lb ls IH]; intros k k' o E H; cbn in E.
  - injection E as <-. destruct H as [[]|H]; exact H.
  - destruct (kstep ob k lb) as [k1|] eqn:E1; [|discriminate]. apply (IH k1); auto.
    rewrite (made_step _ _ _ _ E1). destruct H as [[->|H]|H]; auto; right; apply in_app_iff; auto. right. now left.
Qed.

Lemma one_lock_mem c o : one_lock o -> (length (o_queries (mem_obj c) o) <= 1)%nat.
Proof. destruct o; cbn; auto. now rewrite map_length. Qed.
Lemma one_lock_ldb c o : one_lock o -> (length (o_queries (ldb_obj c) o) <= 1)%nat.
Proof. destruct o; cbn; auto. now rewrite map_length. Qed.
Lemma made_in h o : In o (made h) <-> exists i, In (Inv i o) h.
Proof.
  unfold made. rewrite in_flat_map. split.
  - intros ([i o'|i x|i x] & H & Ho); cbn in Ho; try tauto. destruct Ho as [->|[]]. eauto.
  - intros (i & H). exists (Inv i o). split; auto. now left.
Qed.

(** C57, in-memory store: whatever the schedule, however many goroutines, whatever
    contexts are cancelled, calls each taking the lock once are answered as if made
    one at a time. *)
Theorem C57_inmemory_linearizable_partial : forall c ls k, krun (mem_obj c) (start mem_init) ls = Some k ->
  Forall one_lock (made (k_hist k)) ->
  linearizable (mem_step c) mem_init (k_hist k).
Proof.
  intros c ls k E H. apply (locked_linearizable (mem_obj c) (mem_step c) _ _ (mem_lawful c) mem_init eq_refl ls k E).
  intros o Ho. apply one_lock_mem. rewrite Forall_forall in H. apply H. eapply made_run; eauto.
Qed.
Print Assumptions C57_inmemory_linearizable_partial.

(** ... and, for plain calls, the order of calls is a history of the log
    specification. *)
Theorem C57_inmemory_linearizable_to_log_partial : forall c ls k, codec_ok c ->
  krun (mem_obj c) (start mem_init) ls = Some k ->
  Forall one_lock (made (k_hist k)) -> Forall (plain_call c) (made (k_hist k)) ->
  linearizable_as (fun ops outs => exists answers L, log_run c empty_log ops answers L /\ all_agree ops answers outs)
    (k_hist k).
Proof.
  intros c ls k Hc E H1 H2. destruct (C57_inmemory_linearizable_partial c ls k E H1) as (order & Hr & Hn & Hi & Hrest).
  exists order. split; [|auto]. rewrite <- Hr. apply C06_inmemory_refines_log; auto.
  apply Forall_forall. intros o Ho. rewrite in_map_iff in Ho. destruct Ho as ([[i o'] x] & <- & Ho).
  rewrite Forall_forall in H2. apply H2. apply made_in. exists i. eauto.
Qed.
Print Assumptions C57_inmemory_linearizable_to_log_partial.

(** C57, LevelDB store. *)
Theorem C57_leveldb_linearizable_partial : forall c ls k h, krun (ldb_obj c) (start h) ls = Some k ->
  Forall one_lock (made (k_hist k)) ->
  linearizable (ldb_seq c) h (k_hist k).
Proof.
  intros c ls k h E H. apply (locked_linearizable (ldb_obj c) (ldb_seq c) _ _ (ldb_lawful c) h Logic.I ls k E).
  intros o Ho. apply one_lock_ldb. rewrite Forall_forall in H. apply H. eapply made_run; eauto.
Qed.
Print Assumptions C57_leveldb_linearizable_partial.

(** Dropping calls that would have blocked does not change what the others see. *)
Definition not_blocked (t : nat * op * out) : bool := match snd t with OutBlocked => false | _ => true end.

Lemma seq_blocked c h o h' : ldb_seq c h o = (h', OutBlocked) -> h' = h.
Proof.
  unfold ldb_seq, ldb_step. destruct (early o); [intros E; now injection E as <- _|]. cbn [s_stuck andb].
  destruct (opens_transaction o && _) eqn:Eo; [intros E; now injection E as <-|].
  destruct (ldb_call c _ o) as [ms x] eqn:Ec. cbn. intros E. injection E as <- ->. exfalso.
  destruct o as [ex st evs cn|ex st cn|g|g ts|n st|st cn]; cbn in Ec; try discriminate.
  - unfold ldb_save in Ec. destruct (ldb_save_loop _ _ _ _ _ _ _ _ _ _ _) as [ms' x'].
    destruct x' as [|[? ?]]; discriminate.
  - unfold ldb_delete in Ec. destruct (delete_batch c _); [discriminate|].
    destruct (_ =? 0); [discriminate|]. destruct (negb _); discriminate.
  - destruct (ldb_by_types _ _ _ _); discriminate.
Qed.

Lemma seq_drop c order : forall h, snd (run (ldb_seq c) h (map (fun t => snd (fst t)) order)) = map snd order ->
  snd (run (ldb_step c) (mk_ldb h false) (map (fun t => snd (fst t)) (filter not_blocked order))) = map snd (filter not_blocked order).
Proof.
  induction order as [|[[i o] x] order IH]; intros h E; cbn [map filter run fst snd] in *; auto.
  destruct (ldb_seq c h o) as [h1 y] eqn:Es. destruct (run (ldb_seq c) h1 _) as [h2 ys] eqn:Er.
  cbn in E. injection E as -> E.
  assert (IH1 := IH h1). rewrite Er in IH1. specialize (IH1 E).
  destruct (not_blocked (i, o, x)) eqn:Eb.
  - cbn [map run fst snd]. unfold ldb_seq in Es. destruct (ldb_step c (mk_ldb h false) o) as [st z] eqn:Ez.
    injection Es as <- ->.
    assert (Hst : st = mk_ldb (s_h st) false).
    { unfold ldb_step in Ez. destruct (early o); [injection Ez as <- _; reflexivity|]. cbn [s_stuck andb] in Ez.
      destruct (opens_transaction o && _); [injection Ez as <- <-; discriminate|].
      destruct (ldb_call c _ o). injection Ez as <- _. reflexivity. }
    rewrite Hst. destruct (run (ldb_step c) _ _) as [st2 zs]. cbn in *. now rewrite IH1.
  - assert (x = OutBlocked) as -> by (destruct x; try discriminate; reflexivity).
    apply seq_blocked in Es. subst h1. exact IH1.
Qed.

Lemma events_in_sum ops : events_in ops = fold_right N.add 0 (map added ops).
Proof. induction ops as [|o ops IH]; cbn; auto. unfold events_in in *. now rewrite IH. Qed.

Definition invs (h : list act) : list (nat * op) :=
  flat_map (fun a => match a with Inv i o => [(i, o)] | _ => [] end) h.
Lemma invs_made h : map snd (invs h) = made h.
Proof. unfold invs, made. induction h as [|[i o|i x|i x] h IH]; cbn; auto. now rewrite <- IH. Qed.

Theorem C57_leveldb_linearizable_to_log_partial : forall c ls k, codec_ok c ->
  krun (ldb_obj c) (start (s_h ldb_init)) ls = Some k ->
  Forall one_lock (made (k_hist k)) -> Forall clean_call (made (k_hist k)) -> events_in (made (k_hist k)) < two64 ->
  linearizable_as (fun ops outs => outs = snd (run (log_exec c) empty_log ops)) (k_hist k).
Proof.
  intros c ls k Hc E H1 H2 H3.
  pose proof (C57_leveldb_linearizable_partial c ls k _ E H1) as Hl.
  revert Hl. apply linearizable_weaken with (keep := not_blocked).
  - intros order Hr Hin Hnd. apply seq_drop in Hr.
    set (kept := filter not_blocked order) in *. set (ops := map (fun t => snd (fst t)) kept) in *.
    assert (Hf : Forall (fun x => x <> OutBlocked) (map snd kept)).
    { apply Forall_forall. intros x Hx. apply in_map_iff in Hx as (t & <- & Ht). apply filter_In in Ht as [_ Ht].
      unfold not_blocked in Ht. destruct (snd t); discriminate. }
    assert (Hops : forall o, In o ops -> In o (made (k_hist k))).
    { intros o Ho. apply in_map_iff in Ho as ([[i o'] x] & <- & Ht). apply filter_In in Ht as [Ht _].
      apply made_in. exists i. cbn. eauto. }
    assert (Hcl : Forall clean_call ops).
    { apply Forall_forall. intros o Ho. rewrite Forall_forall in H2. auto. }
    assert (Hsm : events_in ops < two64).
    { eapply N.le_lt_trans; [|exact H3]. rewrite !events_in_sum. rewrite <- invs_made.
      replace ops with (map snd (map fst kept)) by (unfold ops; now rewrite map_map).
      rewrite !(map_map snd added). apply sum_incl.
      - apply (NoDup_map_inv fst). rewrite map_map. unfold kept. clear -Hnd.
        induction order as [|t order IH]; cbn; [constructor|]. inversion Hnd; subst.
        destruct (not_blocked t); cbn; auto. constructor; auto. rewrite in_map_iff in *. intros (t' & E & Hin).
        apply filter_In in Hin as [Hin _]. eauto.
      - intros [i o] Hio. apply in_map_iff in Hio as ([[i' o'] x] & Eq & Ht). cbn in Eq. injection Eq as <- <-.
        apply filter_In in Ht as [Ht _]. unfold invs. apply in_flat_map. exists (Inv i' o'). split; eauto. now left. }
    destruct (run_any c Hc ops ldb_init empty_log (D_init c) Hcl Hsm) as [Ha _]. cbn zeta in Ha.
    change (mk_ldb (s_h ldb_init) false) with ldb_init in Hr. rewrite Hr in Ha.
    destruct (returned_all ops (map snd kept)) as [E1 E2]; auto.
    + unfold ops. now rewrite !map_length.
    + now rewrite E1, E2 in Ha.
  - intros i o x Hx. pose proof (ldb_never_blocked c ls _ k E i x Hx). unfold not_blocked. cbn. destruct x; congruence.
  - intros i o x y _ (p & rest & -> & _). reflexivity.
Qed.
Print Assumptions C57_leveldb_linearizable_to_log_partial.

(** A concrete history for the four theorems: two writers and a cancelled reader, all
    at once. *)
Definition steps (i n : nat) : list label := repeat (LStep i) n.
Definition save_thing : op := OpSave None "thing!x" [thing "a"; thing "b"] None.
Definition save_other : op := OpSave (Some 0) "other!y" [other "c"] None.
Definition busy (n0 n2 r : nat) : list label :=
  [LInvoke save_thing; LInvoke (OpEvents 0); LInvoke save_other] ++
  steps 0 2 ++ steps 2 1 ++ steps 1 2 ++                 (* 0 waits for nobody, 1 is kept out, 2 queues *)
  steps 0 n0 ++ steps 1 1 ++ steps 2 1 ++                (* 1 reads, 2 announced itself *)
  repeat (LSub 1 0) r ++ [LCancel 1 0 true; LStep 1] ++ steps 2 n2.

Definition hist_of {S L Q R} (ob : obj S L Q R) s ls : list act :=
  match krun ob (start s) ls with Some k => k_hist k | None => [] end.
Example C57_witness_inmemory : exists k xs ys zs,
  krun (mem_obj toy) (start mem_init) (busy 6 5 1) = Some k
  /\ k_hist k = [Inv 0 save_thing; Inv 1 (OpEvents 0); Inv 2 save_other; Ret 0 (OutSaved 2 xs);
                 Cut 1 (OutResults ys); Ret 2 (OutSaved 1 zs)]
  /\ length xs = 2%nat /\ length ys = 2%nat /\ Forall one_lock (made (k_hist k)) /\ Forall (plain_call toy) (made (k_hist k)).
Proof.
  eexists _, _, _, _. split; [vm_compute; reflexivity|]. split; [reflexivity|]. repeat split.
  - cbn. repeat constructor.
  - cbn. assert (S : forall ex s evs, one_aggregate evs -> plain_call toy (OpSave ex s evs None)).
    { intros ex s evs H. split; [exact H|]. split; [now left|]. left. exact toy_total. }
    apply Forall_cons; [|apply Forall_cons; [|apply Forall_cons; [|apply Forall_nil]]].
    + apply S. intros e e' He He'; cbn in *; intuition (subst; auto).
    + exact Logic.I.
    + apply S. intros e e' He He'; cbn in *; intuition (subst; auto).
Qed.
Lemma small_names_clean : clean "thing!x" /\ clean "other!y" /\ clean "thing" /\ clean "other".
Proof. repeat split; apply clean_by_check with 10%nat; try (vm_compute; reflexivity); cbn; lia. Qed.
Example C57_witness_leveldb : exists k xs ys zs,
  krun (ldb_obj toy) (start (s_h ldb_init)) (busy 8 7 2) = Some k
  /\ k_hist k = [Inv 0 save_thing; Inv 1 (OpEvents 0); Inv 2 save_other; Ret 0 (OutSaved 2 xs);
                 Cut 1 (OutResults ys); Ret 2 (OutSaved 1 zs)]
  /\ length xs = 2%nat /\ length ys = 2%nat /\ Forall one_lock (made (k_hist k)) /\ Forall clean_call (made (k_hist k))
  /\ events_in (made (k_hist k)) < two64.
Proof.
  eexists _, _, _, _. split; [vm_compute; reflexivity|]. split; [reflexivity|]. repeat split.
  - cbn. repeat constructor.
  - destruct small_names_clean as (C1 & C2 & C3 & C4). cbn.
    repeat apply Forall_cons; try apply Forall_nil; cbn; repeat split; auto; try discriminate; repeat apply Forall_cons; auto.
Qed.

(** Reading two aggregate types is not linearizable: the first type is looked at
    before, the second after, two saves of which the second was made when the first
    had returned; the reader sees the second only. *)
Definition torn_calls : list op :=
  [OpByTypes 0 ["thing"; "other"]; OpSave None "thing!x" [thing "a"] None; OpSave None "other!y" [other "b"] None].
Definition torn (first n last : nat) : list label :=
  [LInvoke (OpByTypes 0 ["thing"; "other"])] ++ steps 0 3 ++ repeat (LSub 0 0) first ++
  [LInvoke (OpSave None "thing!x" [thing "a"] None)] ++ steps 1 n ++
  [LInvoke (OpSave None "other!y" [other "b"] None)] ++ steps 2 n ++
  steps 0 2 ++ repeat (LSub 0 1) last ++ [LStep 0].

Lemma three (T0 T1 T2 : nat * op * out) h order :
  fst (fst T0) = 0%nat -> fst (fst T1) = 1%nat -> fst (fst T2) = 2%nat ->
  (forall i o, In (Inv i o) h -> (i <= 2)%nat) ->
  NoDup (map (fun t : nat * op * out => fst (fst t)) order) ->
  (forall i o x, In (i, o, x) order -> In (Inv i o) h) ->
  In T0 order -> In T1 order -> In T2 order ->
  order = [T0; T1; T2] \/ order = [T0; T2; T1] \/ order = [T1; T0; T2] \/ order = [T1; T2; T0] \/ order = [T2; T0; T1] \/ order = [T2; T1; T0].
Proof.
  intros E0 E1 E2 Hh Hn Hi I0 I1 I2.
  assert (U : forall t1 t2, In t1 order -> In t2 order -> fst (fst t1) = fst (fst t2) -> t1 = t2).
  { clear -Hn. induction order as [|t order IH]; cbn; [tauto|]. inversion Hn; subst.
    intros t1 t2 [->|G1] [->|G2] Ef; auto; exfalso; apply H1; apply in_map_iff; eauto. }
  assert (All : forall t, In t order -> t = T0 \/ t = T1 \/ t = T2).
  { intros [[i o] x] Ht. pose proof (Hh _ _ (Hi _ _ _ Ht)).
    destruct i as [|[|[|i]]]; [left|right; left|right; right|lia]; apply U; auto; cbn; congruence. }
  assert (Hno : NoDup order) by (eapply NoDup_map_inv; exact Hn).
  assert (Hl : length order = 3%nat).
  { apply Nat.le_antisymm.
    - apply (NoDup_incl_length (l' := [T0; T1; T2]) Hno). intros t Ht. destruct (All _ Ht) as [->|[->| ->]]; cbn; auto.
    - apply (NoDup_incl_length (l := [T0; T1; T2]) (l' := order)).
      + repeat constructor; cbn; intuition congruence.
      + intros t [<-|[<-|[<-|[]]]]; auto. }
  destruct order as [|a [|b [|d [|? ?]]]]; try discriminate. clear Hl.
  assert (Ha := All a (or_introl eq_refl)). assert (Hb := All b (or_intror (or_introl eq_refl))).
  assert (Hd := All d (or_intror (or_intror (or_introl eq_refl)))).
  inversion Hno as [|? ? N1 N2]; inversion N2 as [|? ? N3 N4]; subst. cbn in N1, N3.
  intuition (subst; try tauto).
Qed.

Lemma torn_refutes {S} (step : S -> op -> S * out) s0 o0 o1 o2 a0 a1 a2 :
  (forall order, In order [[(0%nat, o0, a0); (1%nat, o1, a1); (2%nat, o2, a2)]; [(0%nat, o0, a0); (2%nat, o2, a2); (1%nat, o1, a1)];
      [(1%nat, o1, a1); (0%nat, o0, a0); (2%nat, o2, a2)]; [(1%nat, o1, a1); (2%nat, o2, a2); (0%nat, o0, a0)];
      [(2%nat, o2, a2); (0%nat, o0, a0); (1%nat, o1, a1)]; [(2%nat, o2, a2); (1%nat, o1, a1); (0%nat, o0, a0)]] ->
    snd (run step s0 (map (fun t => snd (fst t)) order)) <> map snd order) ->
  ~ linearizable step s0 [Inv 0 o0; Inv 1 o1; Ret 1 a1; Inv 2 o2; Ret 2 a2; Ret 0 a0].
Proof.
  intros Hno (order & H1 & H2 & H3 & H4 & _).
  destruct (H4 0%nat a0) as (p0 & I0); [cbn; tauto|].
  destruct (H4 1%nat a1) as (p1 & I1); [cbn; tauto|].
  destruct (H4 2%nat a2) as (p2 & I2); [cbn; tauto|].
  pose proof (H3 _ _ _ I0) as J0. pose proof (H3 _ _ _ I1) as J1. pose proof (H3 _ _ _ I2) as J2.
  cbn in J0, J1, J2.
  assert (p0 = o0) as -> by intuition congruence.
  assert (p1 = o1) as -> by intuition congruence.
  assert (p2 = o2) as -> by intuition congruence.
  apply (Hno order); auto. cbn [In].
  assert (Hh : forall i o, In (Inv i o) [Inv 0 o0; Inv 1 o1; Ret 1 a1; Inv 2 o2; Ret 2 a2; Ret 0 a0] -> (i <= 2)%nat).
  { intros i o H. cbn in H. decompose [or] H; try discriminate; try tauto; match goal with H : _ = _ |- _ => injection H as <- _; lia end. }
  destruct (three (0%nat, o0, a0) (1%nat, o1, a1) (2%nat, o2, a2) _ order eq_refl eq_refl eq_refl Hh H2 H3 I0 I1 I2) as [->|[->|[->|[->|[->| ->]]]]]; auto 10.
Qed.

Theorem C57_inmemory_several_types_refuted : exists k r gone,
  krun (mem_obj toy) (start mem_init) (torn 1 7 2) = Some k
  /\ k_hist k = [Inv 0 (OpByTypes 0 ["thing"; "other"]);
                 Inv 1 (OpSave None "thing!x" [thing "a"] None); Ret 1 (OutSaved 1 [gone]);
                 Inv 2 (OpSave None "other!y" [other "b"] None); Ret 2 (OutSaved 1 [r]);
                 Ret 0 (OutResults [RRec r])]
  /\ ~ linearizable (mem_step toy) mem_init (k_hist k).
Proof.
  eexists _, _, _. split; [vm_compute; reflexivity|]. split; [reflexivity|]. apply torn_refutes.
  intros order H. cbn in H. decompose [or] H; try tauto; subst; vm_compute; discriminate.
Qed.
Print Assumptions C57_inmemory_several_types_refuted.

Theorem C57_leveldb_several_types_refuted : exists k r gone,
  krun (ldb_obj toy) (start (s_h ldb_init)) (torn 2 9 3) = Some k
  /\ k_hist k = [Inv 0 (OpByTypes 0 ["thing"; "other"]);
                 Inv 1 (OpSave None "thing!x" [thing "a"] None); Ret 1 (OutSaved 1 [gone]);
                 Inv 2 (OpSave None "other!y" [other "b"] None); Ret 2 (OutSaved 1 [r]);
                 Ret 0 (OutResults [RRec r])]
  /\ ~ linearizable (ldb_seq toy) (s_h ldb_init) (k_hist k).
Proof.
  eexists _, _, _. split; [vm_compute; reflexivity|]. split; [reflexivity|]. apply torn_refutes.
  intros order H. cbn in H. decompose [or] H; try tauto; subst; vm_compute; discriminate.
Qed.
Print Assumptions C57_leveldb_several_types_refuted.

(** * C27 *)

(** If no call asks for several types, every call is answered: whatever moves the
    scheduler makes and whatever contexts it cancels, after finitely many of them all
    calls made so far have returned — or one has panicked (see C10). *)
Theorem C27_inmemory_one_type_answered_partial : forall c ls k, krun (mem_obj c) (start mem_init) ls = Some k ->
  Forall one_lock (made (k_hist k)) ->
  inevitable (mem_obj c) (fun k => all_answered (k_hist k) \/ exists i, In (Ret i OutPanic) (k_hist k)) k.
Proof.
  intros c ls k E H.
  assert (Hq : forall o, In (LInvoke o) ls -> (length (o_queries (mem_obj c) o) <= 1)%nat).
  { intros o Ho. apply one_lock_mem. rewrite Forall_forall in H. apply H. eapply made_run; eauto. }
  pose proof (answers_inevitable (mem_obj c) _ _ _ _ (mem_live c) ls k mem_init Logic.I E Hq) as Hi.
  clear -Hi. induction Hi as [k [Ha|(i & o & x & _ & Hx & ->)]|k Hm Hn IH].
  - apply in_now. now left.
  - apply in_now. right. eauto.
  - apply in_step; auto.
Qed.
Print Assumptions C27_inmemory_one_type_answered_partial.

Lemma inevitable_run {S L Q R} (ob : obj S L Q R) (P P' : conf -> Prop) (I : conf -> Prop) k :
  (forall k lb k', I k -> internal lb -> kstep ob k lb = Some k' -> I k') -> (forall k, I k -> P k -> P' k) -> I k ->
  inevitable ob P k -> inevitable ob P' k.
Proof.
  intros Hs HP Hk Hi. induction Hi as [k Hp|k Hm Hn IH].
  - apply in_now. auto.
  - apply in_step; auto. intros lb k' Hl E. apply (IH lb k' Hl E). eapply Hs; eauto.
Qed.

Lemma krun_app {S L Q R} (ob : obj S L Q R) ls1 : forall k ls2,
  krun ob k (ls1 ++ ls2) = match krun ob k ls1 with Some k' => krun ob k' ls2 | None => None end.
Proof. induction ls1 as [|lb ls1 IH]; intros k ls2; cbn; auto. destruct (kstep ob k lb); auto. Qed.

(** With tame calls nothing panics. *)
Theorem C27_inmemory_tame_calls_answered_partial : forall c ls k, codec_ok c ->
  krun (mem_obj c) (start mem_init) ls = Some k ->
  Forall one_lock (made (k_hist k)) -> Forall (tame_call c) (made (k_hist k)) ->
  inevitable (mem_obj c) (fun k => all_answered (k_hist k)) k.
Proof.
  intros c ls k Hc E H1 H2.
  eapply (inevitable_run _ (fun k => all_answered (k_hist k) \/ exists i, In (Ret i OutPanic) (k_hist k)) _ (fun k => exists ls, krun (mem_obj c) (start mem_init) ls = Some k
    /\ Forall one_lock (made (k_hist k)) /\ Forall (tame_call c) (made (k_hist k)))).
  - intros k1 lb k2 (ls1 & E1 & O1 & T1) Hl E2. exists (ls1 ++ [lb]). rewrite krun_app, E1. cbn. rewrite E2.
    rewrite (made_step _ _ _ _ E2). destruct lb; [destruct Hl| | | ]; now rewrite app_nil_r.
  - intros k1 (ls1 & E1 & O1 & T1) [Ha|(i & Hx)]; auto. exfalso.
    destruct (C57_inmemory_linearizable_partial c ls1 k1 E1 O1) as (order & Hr & _ & Hi & Hret & _).
    destruct (Hret _ _ Hx) as (o & Ho).
    apply (tame_run_no_panic c Hc (map (fun t => snd (fst t)) order) mem_init empty_log (R_init c)).
    + apply Forall_forall. intros o' Ho'. apply in_map_iff in Ho' as ([[j o''] x] & <- & Hj).
      rewrite Forall_forall in T1. apply T1. apply made_in. exists j. cbn. eauto.
    + apply Forall_forall. intros o' Ho'. apply in_map_iff in Ho' as ([[j o''] x] & <- & Hj).
      rewrite Forall_forall in O1. apply O1. apply made_in. exists j. cbn. eauto.
    + rewrite Hr. apply in_map_iff. exists (i, o, OutPanic). auto.
  - exists ls. auto.
  - eapply C27_inmemory_one_type_answered_partial; eauto.
Qed.
Print Assumptions C27_inmemory_tame_calls_answered_partial.

(** LevelDB: ... or a delete has been refused (see C18). *)
Theorem C27_leveldb_one_type_answered_partial : forall c ls k h, h_tx h = None -> krun (ldb_obj c) (start h) ls = Some k ->
  Forall one_lock (made (k_hist k)) ->
  inevitable (ldb_obj c) (fun k => all_answered (k_hist k) \/
    exists i o x, In (Inv i o) (k_hist k) /\ In (Ret i x) (k_hist k) /\ refused_delete o x) k.
Proof.
  intros c ls k h Hh E H.
  assert (Hq : forall o, In (LInvoke o) ls -> (length (o_queries (ldb_obj c) o) <= 1)%nat).
  { intros o Ho. apply one_lock_ldb. rewrite Forall_forall in H. apply H. eapply made_run; eauto. }
  apply (answers_inevitable (ldb_obj c) _ _ _ _ (ldb_live c) ls k h Hh E Hq).
Qed.
Print Assumptions C27_leveldb_one_type_answered_partial.

(** The run of C57_witness_*, stopped where a reader is kept out by a writer and
    another writer queues behind: it goes on. *)
Definition crowd : list label :=
  [LInvoke save_thing; LInvoke (OpEvents 0); LInvoke save_other] ++ steps 0 3 ++ steps 2 1 ++ steps 1 2.
Example C27_witness_inmemory : exists k, krun (mem_obj toy) (start mem_init) crowd = Some k
  /\ Forall one_lock (made (k_hist k)) /\ Forall (tame_call toy) (made (k_hist k))
  /\ ~ answered 0 (k_hist k) /\ ~ answered 1 (k_hist k) /\ ~ answered 2 (k_hist k)
  /\ kstep (mem_obj toy) k (LStep 1) = None /\ kstep (mem_obj toy) k (LStep 2) = None.
Proof.
  eexists. split; [vm_compute; reflexivity|]. split; [cbn; repeat constructor|]. split.
  - cbn. repeat apply Forall_cons; try exact Logic.I; try apply Forall_nil; left; exact toy_total.
  - repeat split; try (vm_compute; reflexivity); intros (x & H); cbn in H; intuition discriminate.
Qed.
Example C27_witness_leveldb : exists k, krun (ldb_obj toy) (start (s_h ldb_init)) crowd = Some k
  /\ Forall one_lock (made (k_hist k)) /\ ~ answered 0 (k_hist k)
  /\ kstep (ldb_obj toy) k (LStep 1) = None /\ kstep (ldb_obj toy) k (LStep 2) = None.
Proof.
  eexists. split; [vm_compute; reflexivity|]. split; [cbn; repeat constructor|].
  repeat split; try (vm_compute; reflexivity); intros (x & H); cbn in H; intuition discriminate.
Qed.

(** Reading two types: there is something to read of the first; a writer comes
    between the two locks. *)
Definition jam_run (save first : nat) : list label :=
  [LInvoke (OpSave None "thing!x" [thing "a"] None)] ++ steps 0 save ++
  [LInvoke (OpByTypes 0 ["thing"; "other"])] ++ steps 1 3 ++ repeat (LSub 1 0) first ++
  [LInvoke (OpSave None "other!y" [other "b"] None)] ++ steps 2 2 ++ steps 1 1.

Definition no_cancel (lb : label) : Prop := match lb with LCancel _ _ _ => False | _ => True end.

(** From then on neither the reader nor the writer is answered, nor any call made
    later that needs the lock, unless a context is cancelled. *)
Definition locked_up {S L Q R} (ob : obj S L Q R) (k : conf) : Prop :=
  In (Inv 1 (OpByTypes 0 ["thing"; "other"])) (k_hist k) /\ In (Inv 2 (OpSave None "other!y" [other "b"] None)) (k_hist k)
  /\ forall ls k', Forall no_cancel ls -> krun ob k ls = Some k' ->
     ~ answered 1 (k_hist k') /\ ~ answered 2 (k_hist k') /\
     forall i o, (3 <= i)%nat -> In (Inv i o) (k_hist k') -> (forall s, o_direct ob o s = None) -> ~ answered i (k_hist k').

Lemma locks_up {S L Q R} (ob : obj S L Q R) s ls0 k subs q todo rd sent x rd' :
  krun ob (start s) ls0 = Some k -> length (k_calls k) = 3%nat -> k_writer k = Some (2%nat, false) ->
  nth_error (k_calls k) 2 = Some (mk_call (OpSave None "other!y" [other "b"] None) CWaitW) ->
  nth_error (k_calls k) 1 = Some (mk_call (OpByTypes 0 ["thing"; "other"]) (CBlocked subs q todo)) ->
  nth_error subs 0 = Some (SRun rd sent) -> o_rstep ob rd (k_shared k) = RSend x rd' ->
  In (Inv 1 (OpByTypes 0 ["thing"; "other"])) (k_hist k) -> In (Inv 2 (OpSave None "other!y" [other "b"] None)) (k_hist k) ->
  locked_up ob k.
Proof.
  intros E Hlen Hw H2 H1 Hs Hr I1 I2. split; [exact I1|]. split; [exact I2|]. intros ls k' Hc E'.
  assert (Hj : jammed ob 1 0 2 k).
  { split.
    - eapply J_krun; [apply J_start|exact E].
    - exact Hw.
    - eauto.
    - eexists _, subs, q, todo, rd, sent, x, rd'. eauto. }
  assert (Hcc : forall lb, In lb ls -> ~ cancels 1 0 lb).
  { intros lb Hl (b & ->). rewrite Forall_forall in Hc. apply (Hc _ Hl). }
  destruct (jammed_forever ob 1 0 2 s ls0 ls k k' E Hj Hcc E') as [A1 A2].
  split; auto. split; auto. intros i o Hi Hin Hd.
  (* split the run at the first step of the goroutine: there is none that succeeds *)
  assert (Hsh : forall ls k k', shut ob 3 1 0 2 (k_shared k) k -> jammed ob 1 0 2 k -> Forall no_cancel ls ->
     krun ob k ls = Some k' -> shut ob 3 1 0 2 (k_shared k) k').
  { clear. induction ls as [|lb ls IH]; intros k k' Hs Hj Hc E; cbn in E; [now injection E as <-|].
    destruct (kstep ob k lb) as [k1|] eqn:E1; [|discriminate]. inversion Hc; subst.
    assert (Hm : ~ moves 1 0 lb).
    { intros [->|(b & ->)]; [|cbn in *; tauto].
      destruct Hj as [_ _ _ (oi & subs & q & todo & rd & sent & x & rd' & Hn & Hsub & Hst)].
      cbn [kstep] in E1. rewrite Hn in E1. unfold step_sub in E1. cbn [c_pc subs_of] in E1. rewrite Hsub, Hst in E1. discriminate. }
    pose proof (shut_step ob _ _ _ _ _ _ _ _ Hs Hm E1) as Hs1.
    assert (Hsame : k_shared k1 = k_shared k) by apply (e_shared _ _ _ _ _ _ (sh_open _ _ _ _ _ _ _ Hs1)).
    rewrite <- Hsame. apply (IH k1); auto; [now rewrite Hsame|]. eapply jammed_step; eauto.
    intros (b & ->). apply Hm. right. eauto. }
  assert (Ha : alive 1 0 k) by (eexists _, _, subs, false, _, rd, sent; split; [exact H1|]; split; [reflexivity|exact Hs]).
  assert (Hs0 : shut ob 3 1 0 2 (k_shared k) k).
  { split; auto.
    - rewrite <- Hlen. eapply open_now; eauto.
    - intros y oy py Hy Hn. rewrite (proj2 (nth_error_None _ _)) in Hn by lia. discriminate. }
  pose proof (Hsh ls k k' Hs0 Hj Hc E') as Hs'.
  intros Hans.
  assert (Hrr : krun ob (start s) (ls0 ++ ls) = Some k') by (rewrite krun_app, E; exact E').
  destruct (inv_call ob _ _ _ Hrr (fun i o H => match H with end) _ _ Hin) as (p & Hp).
  destruct (h_done _ (e_h _ _ _ _ _ _ (sh_open _ _ _ _ _ _ _ Hs')) _ Hans) as (o' & Ho'). rewrite Hp in Ho'. injection Ho' as -> ->.
  destruct (sh_all _ _ _ _ _ _ _ Hs' _ _ _ Hi Hp Hd) as [?|[?|[(? & ? & ?)|(? & ? & ?)]]]; discriminate.
Qed.

Theorem C27_inmemory_deadlock_refuted : exists k, krun (mem_obj toy) (start mem_init) (jam_run 7 0) = Some k
  /\ locked_up (mem_obj toy) k.
Proof.
  pose (k := match krun (mem_obj toy) (start mem_init) (jam_run 7 0) with Some k => k | None => start mem_init end).
  assert (E : krun (mem_obj toy) (start mem_init) (jam_run 7 0) = Some k) by (vm_compute; reflexivity).
  exists k. split; [exact E|]. eapply locks_up; [exact E|..]; try (vm_compute; reflexivity); vm_compute; auto 10.
Qed.
Print Assumptions C27_inmemory_deadlock_refuted.

Theorem C27_leveldb_deadlock_refuted : exists k, krun (ldb_obj toy) (start (s_h ldb_init)) (jam_run 9 1) = Some k
  /\ locked_up (ldb_obj toy) k.
Proof.
  pose (k := match krun (ldb_obj toy) (start (s_h ldb_init)) (jam_run 9 1) with Some k => k | None => start (s_h ldb_init) end).
  assert (E : krun (ldb_obj toy) (start (s_h ldb_init)) (jam_run 9 1) = Some k) by (vm_compute; reflexivity).
  exists k. split; [exact E|]. eapply locks_up; [exact E|..]; try (vm_compute; reflexivity); vm_compute; auto 10.
Qed.
Print Assumptions C27_leveldb_deadlock_refuted.

(** * C58 *)

(** A read that is under way and whose next record nobody takes: as long as it is not
    taken and the read's context is not cancelled, nothing is stored and no later save
    or delete is answered; once a writer waits, no later read is answered either. *)
Definition write_call (o : op) : Prop :=
  match o with OpSave _ _ evs _ => evs <> [] | OpDelete _ _ cn => done_at cn 0 = false | _ => False end.
Definition read_call (o : op) : Prop :=
  match o with OpEvents _ | OpByStream _ _ => True | OpByTypes _ ts => ts <> [] | _ => False end.

(** Call [i] was handed to its consumer, is not finished, and from now on is not read. *)
Definition under_way {S L Q R} (i : nat) (k : conf (S := S) (L := L) (Q := Q) (R := R)) : Prop :=
  exists o rd sent, nth_error (k_calls k) i = Some (mk_call o (CRead [SRun rd sent])).
Definition unread (i : nat) (ls : list label) : Prop :=
  Forall (fun lb => match lb with LSub i' _ => i' <> i | LCancel i' _ _ => i' <> i | _ => True end) ls.

Lemma under_way_alive {S L Q R} i (k : conf (S := S) (L := L) (Q := Q) (R := R)) : under_way i k -> alive i 0 k.
Proof. intros (o & rd & sent & H). eexists o, _, _, _, _, rd, sent. split; [exact H|]. split; reflexivity. Qed.
Lemma unread_moves i ls : unread i ls -> forall lb, In lb ls -> ~ moves i 0 lb.
Proof.
  unfold unread. rewrite Forall_forall. intros H lb Hl [->|(b & ->)]; specialize (H _ Hl); cbn in H; congruence.
Qed.

Theorem C58_inmemory_unread_iterator_blocks_refuted : forall c ls0 k i ls k',
  krun (mem_obj c) (start mem_init) ls0 = Some k -> under_way i k -> unread i ls -> krun (mem_obj c) k ls = Some k' ->
  k_shared k' = k_shared k
  /\ (forall w o, (length (k_calls k) <= w)%nat -> In (Inv w o) (k_hist k') -> write_call o -> ~ answered w (k_hist k'))
  /\ (k_writer k <> None -> forall w o, (length (k_calls k) <= w)%nat -> In (Inv w o) (k_hist k') ->
        read_call o \/ write_call o -> ~ answered w (k_hist k')).
Proof.
  intros c ls0 k i ls k' E0 Hu Hn E. pose proof (under_way_alive _ _ Hu) as Ha. pose proof (unread_moves _ _ Hn) as Hm.
  assert (Hd : forall o, read_call o \/ write_call o -> forall s, o_direct (mem_obj c) o s = None).
  { intros [ex s [|e evs] cn|ex s cn|g|g [|t ts]|n s|s cn] Ho m; cbn in *; try tauto; destruct Ho as [Ho|Ho]; try tauto; try congruence.
    now rewrite Ho. }
  destruct (writers_wait (mem_obj c) _ _ _ _ _ _ _ E0 Ha Hm E) as [Hs Hw]. split; [exact Hs|]. split.
  - intros w o Hl Hi Ho. apply (Hw w o Hl Hi); [|now apply Hd; right]. destruct o; cbn in *; try tauto; discriminate.
  - intros Hk w o Hl Hi Ho.
    assert (exists x, k_writer k = Some (x, false)) as (x & Hx).
    { destruct (k_writer k) as [[x b]|] eqn:Ek; [|congruence]. destruct b; eauto.
      assert (HJ : J k) by (eapply J_krun; [apply J_start|exact E0]).
      pose proof (j_w2 _ HJ _ Ek). pose proof (alive_pos _ _ _ HJ Ha). lia. }
    apply (everybody_waits (mem_obj c) _ _ _ _ _ _ _ _ E0 Ha Hx Hm E w o Hl Hi). now apply Hd.
Qed.
Print Assumptions C58_inmemory_unread_iterator_blocks_refuted.

Theorem C58_leveldb_unread_iterator_blocks_refuted : forall c h ls0 k i ls k',
  krun (ldb_obj c) (start h) ls0 = Some k -> under_way i k -> unread i ls -> krun (ldb_obj c) k ls = Some k' ->
  k_shared k' = k_shared k
  /\ (forall w o, (length (k_calls k) <= w)%nat -> In (Inv w o) (k_hist k') -> write_call o -> ~ answered w (k_hist k'))
  /\ (k_writer k <> None -> forall w o, (length (k_calls k) <= w)%nat -> In (Inv w o) (k_hist k') ->
        read_call o \/ write_call o -> ~ answered w (k_hist k')).
Proof.
  intros c h ls0 k i ls k' E0 Hu Hn E. pose proof (under_way_alive _ _ Hu) as Ha. pose proof (unread_moves _ _ Hn) as Hm.
  assert (Hd : forall o, read_call o \/ write_call o -> forall s, o_direct (ldb_obj c) o s = None).
  { intros [ex s [|e evs] cn|ex s cn|g|g [|t ts]|n s|s cn] Ho m; cbn in *; unfold ldb_direct; cbn; try tauto; destruct Ho as [Ho|Ho]; try tauto; try congruence.
    now rewrite Ho. }
  destruct (writers_wait (ldb_obj c) _ _ _ _ _ _ _ E0 Ha Hm E) as [Hs Hw]. split; [exact Hs|]. split.
  - intros w o Hl Hi Ho. apply (Hw w o Hl Hi); [|now apply Hd; right]. destruct o; cbn in *; try tauto; discriminate.
  - intros Hk w o Hl Hi Ho.
    assert (exists x, k_writer k = Some (x, false)) as (x & Hx).
    { destruct (k_writer k) as [[x b]|] eqn:Ek; [|congruence]. destruct b; eauto.
      assert (HJ : J k) by (eapply J_krun; [apply J_start|exact E0]).
      pose proof (j_w2 _ HJ _ Ek). pose proof (alive_pos _ _ _ HJ Ha). lia. }
    apply (everybody_waits (ldb_obj c) _ _ _ _ _ _ _ _ E0 Ha Hx Hm E w o Hl Hi). now apply Hd.
Qed.
Print Assumptions C58_leveldb_unread_iterator_blocks_refuted.

(** A consumer that saves while it reads: after the first record it calls Save, which
    announces itself and waits; a reader that comes then waits as well. *)
Definition handler (save first : nat) : list label :=
  [LInvoke save_thing] ++ steps 0 save ++ [LInvoke (OpEvents 0)] ++ steps 1 3 ++ repeat (LSub 1 0) first ++
  [LInvoke save_other] ++ steps 2 2.
Example C58_witness_inmemory : exists k, krun (mem_obj toy) (start mem_init) (handler 8 1) = Some k
  /\ under_way 1 k /\ k_writer k = Some (2%nat, false)
  /\ unread 1 [LInvoke (OpEvents 0); LStep 3; LStep 3] /\ krun (mem_obj toy) k [LInvoke (OpEvents 0); LStep 3; LStep 3] <> None.
Proof.
  eexists. split; [vm_compute; reflexivity|]. split; [eexists _, _, _; reflexivity|]. split; [reflexivity|].
  split; [repeat constructor|]. vm_compute. discriminate.
Qed.
Example C58_witness_leveldb : exists k, krun (ldb_obj toy) (start (s_h ldb_init)) (handler 10 2) = Some k
  /\ under_way 1 k /\ k_writer k = Some (2%nat, false)
  /\ unread 1 [LInvoke (OpEvents 0); LStep 3; LStep 3] /\ krun (ldb_obj toy) k [LInvoke (OpEvents 0); LStep 3; LStep 3] <> None.
Proof.
  eexists. split; [vm_compute; reflexivity|]. split; [eexists _, _, _; reflexivity|]. split; [reflexivity|].
  split; [repeat constructor|]. vm_compute. discriminate.
Qed.
