(** C110 while calls overlap, in memory and LevelDB: the number a conflict tells is that of
    the stream after calls which the refused caller may have come behind. *)
From Coq Require Import PeanoNat.
From Verif Require Import Base LogSpec StoreSpec ToyCodec InMemory InMemoryProofs LevelDB LevelDBSpec LogProofs Locks LocksSpec LocksProofs LocksHeld LocksStores LocksStoresProofs
  Properties_InMemory Properties_LevelDB Properties_Locks Properties_Retry Properties_Stays Properties_StaysBusy.
Open Scope string_scope.
Open Scope list_scope.
Open Scope N_scope.

(** ** What is claimed *)
(** [earlier]: calls with their answers that may all have happened before call [b] did.
    All that were answered when [b] was made are among them, and none that was made when
    [b] had been answered. *)
Record may_precede (h : list act) (b : nat) (earlier : list (nat * op * out)) : Prop := {
  mp_once : NoDup (map (fun t => fst (fst t)) earlier);
  mp_made : forall i o x, In (i, o, x) earlier -> i <> b /\ In (Inv i o) h /\ (forall y, In (Ret i y) h -> y = x) /\ forall y, ~ before (Ret b y) (Inv i o) h;
  mp_all : forall i x o, before (Ret i x) (Inv b o) h -> exists oi, In (i, oi, x) earlier
}.
(** Done one by one by the sequential store [step], these calls get those answers, and a
    count of the stream [s] then gives [n]. *)
Definition leaves {St} (step : St -> op -> St * out) (s0 : St) (earlier : list (nat * op * out)) (s : string) (n : N) : Prop :=
  let r := run step s0 (map (fun t => snd (fst t)) earlier) in
  snd r = map snd earlier /\ snd (step (fst r) (OpTotal s None)) = OutTotal n.
(** Whoever is told a number of a stream, is told one that fits. *)
Definition told_fits {St} (step : St -> op -> St * out) (s0 : St) (h : list act) : Prop :=
  forall b o p q s, In (Inv b o) h -> In (Ret b (OutFailed (EUnexpectedSeq p q))) h -> tells s q o (OutFailed (EUnexpectedSeq p q)) ->
    expects s p o /\ p <> q /\ exists earlier, may_precede h b earlier /\ leaves step s0 earlier s q.

(** ** Proof *)
Lemma fits_of_order {St} (step : St -> op -> St * out) s0 h : ids_once h -> linearizable step s0 h ->
  (forall ops o p q s, Forall (fun z => In z (made h)) (ops ++ [o]) -> tells s q o (OutFailed (EUnexpectedSeq p q)) ->
     snd (step (fst (run step s0 ops)) o) = OutFailed (EUnexpectedSeq p q) ->
     expects s p o /\ p <> q /\ snd (step (fst (run step s0 ops)) (OpTotal s None)) = OutTotal q) ->
  told_fits step s0 h.
Proof.
  intros Hid (order & Ha & Hn & Hi & Hr & _ & Ht) Hs b o p q s Ib Rb T.
  destruct (Hr _ _ Rb) as (o2 & Ob). assert (o2 = o) as -> by (apply (Hid b); [exact (Hi _ _ _ Ob)|exact Ib]).
  assert (Hno : NoDup order) by (eapply NoDup_map_inv; exact Hn).
  pose proof Ob as Sp. apply in_split in Sp as (l1 & l3 & E).
  assert (Fo : Forall (fun z => In z (made h)) (map (fun t => snd (fst t)) order)).
  { apply Forall_forall. intros z Hz. apply in_map_iff in Hz as ([[iz oz] xz] & <- & Hz). apply made_in. exists iz. cbn. eauto. }
  rewrite E, !map_app in Ha. cbn [map fst snd] in Ha. rewrite run_app in Ha.
  pose proof (run_len step (map (fun t => snd (fst t)) l1) s0) as Ln.
  assert (Fo' : Forall (fun z => In z (made h)) (map (fun t => snd (fst t)) l1 ++ [o])).
  { rewrite E, map_app in Fo. cbn [map fst snd] in Fo. apply Forall_app in Fo as [F1 F2]. apply Forall_app. split; [exact F1|]. constructor; [exact (Forall_inv F2)|constructor]. }
  specialize (Hs (map (fun t => snd (fst t)) l1) o p q s Fo' T).
  destruct (run step s0 (map (fun t => snd (fst t)) l1)) as [m1 xs1] eqn:E1. cbn [fst snd run] in *.
  destruct (step m1 o) as [m2 x2] eqn:E2. destruct (run step m2 (map (fun t => snd (fst t)) l3)) as [m3 xs3]. cbn [fst snd] in *.
  apply split_answers in Ha as [Ha Ha2]; [|rewrite Ln, !map_length; reflexivity]. injection Ha2 as -> _.
  destruct (Hs eq_refl) as (S1 & S2 & S3). split; [exact S1|]. split; [exact S2|]. exists l1. split.
  - assert (Bi : forall t, In t l1 -> before t (b, o, OutFailed (EUnexpectedSeq p q)) order).
    { intros t Hin. apply in_split in Hin as (u & v & ->). exists u, v, l3. rewrite E, <- app_assoc. reflexivity. }
    constructor.
    + clear -Hn E. rewrite E, map_app in Hn. revert Hn. generalize (map (fun t : nat * op * out => fst (fst t)) l1). intros u. induction u as [|z u IH]; cbn; intros N; [constructor|]. inversion N as [|? ? N1 N2]; subst. constructor; [intros X; apply N1; apply in_or_app; now left|auto].
    + intros i oi x Hin. pose proof (Bi _ Hin) as B. pose proof (proj1 (before_in _ _ _ B)) as Oi. split; [|split; [exact (Hi _ _ _ Oi)|split]].
      * intros ->. pose proof (nodup_same _ _ _ _ Hn Oi Ob eq_refl) as X. rewrite <- X in B. exact (before_asym _ _ _ Hno B B).
      * intros y Ry. destruct (Hr _ _ Ry) as (o3 & O3). pose proof (nodup_same _ _ _ _ Hn Oi O3 eq_refl). congruence.
      * intros y By. destruct (Ht _ _ _ _ _ _ By (or_introl eq_refl) Oi) as (o3 & y3 & B3).
        pose proof (nodup_same _ _ _ _ Hn Ob (proj1 (before_in _ _ _ B3)) eq_refl) as X. rewrite <- X in B3. exact (before_asym _ _ _ Hno B B3).
    + intros i x o' By. assert (o' = o) as -> by (apply (Hid b); [exact (proj2 (before_in _ _ _ By))|exact Ib]).
      destruct (Ht _ _ _ _ _ _ By (or_introl eq_refl) Ob) as (oi & y & B).
      destruct (Hr i x (proj1 (before_in _ _ _ By))) as (o3 & O3). pose proof (nodup_same _ _ _ _ Hn (proj1 (before_in _ _ _ B)) O3 eq_refl) as X. injection X as -> ->.
      exists o3. rewrite E in O3. apply in_app_or in O3 as [O3|[O3|O3]]; [exact O3| |]; exfalso.
      * rewrite <- O3 in B. exact (before_asym _ _ _ Hno B B).
      * apply (before_asym _ _ _ Hno B). apply in_split in O3 as (u & v & ->). exists l1, u, v. exact E.
  - unfold leaves. rewrite E1. cbn [fst snd]. auto.
Qed.

(** C110, in memory, calls overlapping. *)
Theorem C110_in_memory_overlapping_partial : forall c ls k, codec_ok c -> krun (mem_obj c) (start mem_init) ls = Some k ->
  Forall one_lock (made (k_hist k)) -> Forall (plain_call c) (made (k_hist k)) -> told_fits (mem_step c) mem_init (k_hist k).
Proof.
  intros c ls k Hc E H1 H2. apply fits_of_order; [eapply hist_ids; exact E|exact (C57_inmemory_linearizable_partial c ls k E H1)|].
  intros ops o p q s F T Hx.
  assert (Fp : Forall (plain_call c) (ops ++ [o])) by (rewrite Forall_forall in *; auto). apply Forall_app in Fp as [Fp Fo]. apply Forall_inv in Fo.
  assert (St : forall m L o, R c m L -> plain_call c o -> exists L', R c (fst (mem_step c m o)) L').
  { intros m L o0 HR Ho. destruct (InMemoryProofs.step_ok c Hc m L o0 HR Ho) as (x & _ & _ & S3). eauto. }
  assert (Rn : forall ops m L, R c m L -> Forall (plain_call c) ops -> exists L', R c (fst (run (mem_step c) m ops)) L').
  { clear -St. induction ops as [|o ops IH]; intros m L H F; cbn [run]; [eauto|]. pose proof (Forall_inv F) as Ho. apply Forall_inv_tail in F.
    destruct (St m L o H Ho) as (L1 & H1). destruct (mem_step c m o) as [m1 x]. cbn [fst] in H1.
    destruct (IH m1 L1 H1 F) as (L2 & H2). destruct (run (mem_step c) m1 ops). exists L2. exact H2. }
  destruct (Rn ops mem_init empty_log (R_init c) Fp) as (L & HR).
  destruct (InMemoryProofs.step_ok c Hc _ L o HR Fo) as (x & S1 & S2 & _). rewrite Hx in S2.
  assert (M : expects s p o /\ p <> q /\ stream_length s L = q).
  { destruct S2 as [->|A].
    - pose proof (log_step_exec _ _ _ _ _ S1) as X. inversion T; subst; cbn in X.
      + destruct (save_refused c L ex s evs cn) as [e|] eqn:Er; [|discriminate]. injection X as <-.
        destruct (conflict_number _ _ _ _ _ _ _ _ Er) as (-> & -> & Hne). split; [constructor|]. auto.
      + destruct (delete_refused L ex s cn) as [e|] eqn:Er; [|discriminate]. injection X as <-.
        destruct (delete_number _ _ _ _ _ _ Er) as (-> & -> & Hne). split; [constructor|]. auto.
    - destruct o as [ex t evs cn|ex t cn| | | |]; try contradiction. destruct x as [|e| | | | |]; try contradiction. destruct e; try contradiction.
      inversion T; subst. destruct (N.eqb_spec ex 0) as [->|Hne]; [discriminate A|]. injection A as -> ->.
      split; [constructor|]. split; [exact Hne|]. pose proof (log_step_exec _ _ _ _ _ S1) as X. cbn in X. unfold delete_refused in X.
      destruct (done_at cn 0); [discriminate|]. destruct (N.eqb_spec (stream_length t L) 0); [assumption|]. destruct (ex =? stream_length t L); discriminate. }
  destruct M as (M1 & M2 & M3). split; [exact M1|]. split; [exact M2|]. now rewrite (save_total c _ L s q HR M3).
Qed.
Print Assumptions C110_in_memory_overlapping_partial.

(** C110, LevelDB, calls overlapping; the sequential store is the log specification. *)
Theorem C110_leveldb_overlapping_partial : forall c ls k, codec_ok c -> krun (ldb_obj c) (start (s_h ldb_init)) ls = Some k ->
  Forall one_lock (made (k_hist k)) -> Forall clean_call (made (k_hist k)) -> events_in (made (k_hist k)) < two64 -> told_fits (log_exec c) empty_log (k_hist k).
Proof.
  intros c ls k Hc E H1 H2 H3. apply fits_of_order; [eapply hist_ids; exact E| |].
  - destruct (C57_leveldb_linearizable_to_log_partial c ls k Hc E H1 H2 H3) as (order & Ha & Hrest). exists order. split; [now symmetry|exact Hrest].
  - intros ops o p q s _ T Hx. set (L := fst (run (log_exec c) empty_log ops)) in *. clearbody L.
    assert (M : expects s p o /\ p <> q /\ stream_length s L = q).
    { inversion T; subst; cbn in Hx.
      - destruct (save_refused c L ex s evs cn) as [e|] eqn:Er; [|discriminate]. injection Hx as ->.
        destruct (conflict_number _ _ _ _ _ _ _ _ Er) as (-> & -> & Hne). split; [constructor|]. auto.
      - destruct (delete_refused L ex s cn) as [e|] eqn:Er; [|discriminate]. injection Hx as ->.
        destruct (delete_number _ _ _ _ _ _ Er) as (-> & -> & Hne). split; [constructor|]. auto. }
    destruct M as (M1 & M2 & <-). split; [exact M1|]. split; [exact M2|]. reflexivity.
Qed.
Print Assumptions C110_leveldb_overlapping_partial.

(** Non-vacuity: the contested histories of C111, in which call 3 is told 2. *)
Example C110_busy_inhabited : (exists k xs ys, krun (mem_obj toy) (start mem_init) (contested 7 4 7 5) = Some k
  /\ k_hist k = [Inv 0 (OpSave None "thing!x" [thing "a"] None); Ret 0 (OutSaved 1 xs); Inv 1 (OpTotal "thing!x" None); Ret 1 (OutTotal 1);
                 Inv 2 (grow "b"); Inv 3 (grow "c"); Ret 2 (OutSaved 2 ys); Ret 3 (OutFailed (EUnexpectedSeq 1 2))])
  /\ tells "thing!x" 2 (grow "c") (OutFailed (EUnexpectedSeq 1 2)).
Proof. split; [destruct C111_busy_inhabited_inmemory as (k & xs & ys & H1 & H2 & _); exists k, xs, ys; auto|constructor]. Qed.
