(** C111 while other calls are under way: a number learned of a stream stays right until
    the stream is changed, whatever the schedule. *)
From Coq Require Import PeanoNat.
From Verif Require Import Base LogSpec StoreSpec ToyCodec InMemory InMemoryProofs LevelDB LevelDBSpec Locks LocksSpec LocksProofs LocksHeld LocksStores LocksStoresProofs
  Properties_InMemory Properties_LevelDB Properties_Locks Properties_Stays.
Open Scope string_scope.
Open Scope list_scope.
Open Scope N_scope.

(** ** What is claimed *)
(** Somebody whose call [i] was answered learned the number [n] of the stream [s], and
    then made the call [j] expecting it.  If that call was answered with a conflict, then
    some other call changed the stream, or is about to tell its caller so: it was not yet
    answered when [i] was made, and it was made before [j] was answered. *)
Definition stays_right_busy (h : list act) : Prop :=
  forall i o x j o' p q s n,
    In (Inv i o) h -> before (Ret i x) (Inv j o') h -> In (Ret j (OutFailed (EUnexpectedSeq p q))) h ->
    tells s n o x -> expects s n o' ->
    exists m om y, m <> i /\ m <> j /\ In (Inv m om) h /\ changes s om y
      /\ (forall y', In (Ret m y') h -> y' = y)
      /\ (forall y', ~ before (Ret m y') (Inv i o) h)
      /\ (forall y', ~ before (Ret j y') (Inv m om) h).

(** ** Proof *)
Definition ids_once (h : list act) : Prop := forall i o o', In (Inv i o) h -> In (Inv i o') h -> o = o'.

Lemma nodup_same {A B} (f : A -> B) l a b : NoDup (map f l) -> In a l -> In b l -> f a = f b -> a = b.
Proof.
  induction l as [|z l IH]; cbn; [contradiction|]. intros H Ha Hb E. inversion H as [|? ? H1 H2]; subst.
  destruct Ha as [->|Ha], Hb as [->|Hb]; auto.
  - exfalso. apply H1. rewrite E. now apply in_map.
  - exfalso. apply H1. rewrite <- E. now apply in_map.
Qed.
Lemma before_in {A} (a b : A) l : before a b l -> In a l /\ In b l.
Proof. intros (l1 & l2 & l3 & ->). split; apply in_or_app; right; cbn; auto. right. apply in_or_app. right. now left. Qed.
Lemma before_asym {A} (l : list A) a b : NoDup l -> before a b l -> before b a l -> False.
Proof.
  intros H (l1 & l2 & l3 & E1) (m1 & m2 & m3 & E2). subst l.
  (* the position of [a] is less than that of [b], and the other way round *)
  assert (P : forall (x y : A) u v w u' v' w', NoDup (u ++ x :: v ++ y :: w) -> u ++ x :: v ++ y :: w = u' ++ y :: v' ++ x :: w' -> False).
  { clear. intros x y u. induction u as [|z u IH]; intros v w u' v' w' N E.
    - destruct u' as [|z' u']; cbn in *.
      + injection E as -> E. inversion N as [|? ? N1 _]. apply N1. apply in_or_app. right. now left.
      + injection E as -> E. inversion N as [|? ? N1 _]. apply N1. rewrite E. apply in_or_app. right. right. apply in_or_app. right. now left.
    - destruct u' as [|z' u']; cbn in *.
      + injection E as -> E. inversion N as [|? ? N1 _]. apply N1. apply in_or_app. right. right. apply in_or_app. right. now left.
      + injection E as -> E. inversion N as [|? ? _ N2]. exact (IH _ _ _ _ _ N2 E). }
  exact (P _ _ _ _ _ _ _ _ H E2).
Qed.

Lemma busy_of_order allowed h : ids_once h -> linearizable_as allowed h ->
  (forall ops outs, allowed ops outs -> Forall (fun o => In o (made h)) ops -> stays_right ops outs) -> stays_right_busy h.
Proof.
  intros Hid (order & Ha & Hn & Hi & Hr & _ & Ht) Hs i o x j o' p q s n Ii B Rj T X.
  destruct (Hr _ _ Rj) as (o2 & Oj). assert (o2 = o') as ->. { apply (Hid j); [exact (Hi _ _ _ Oj)|exact (proj2 (before_in _ _ _ B))]. }
  destruct (Ht _ _ _ _ _ _ B (or_introl eq_refl) Oj) as (oi & y & Bo).
  pose proof (proj1 (before_in _ _ _ Bo)) as Oi. assert (oi = o) as ->. { apply (Hid i); [exact (Hi _ _ _ Oi)|exact Ii]. }
  assert (y = x) as ->.
  { destruct (Hr i x (proj1 (before_in _ _ _ B))) as (o3 & O3). pose proof (nodup_same _ _ _ _ Hn Oi O3 eq_refl) as E. congruence. }
  assert (Hno : NoDup order) by (eapply NoDup_map_inv; exact Hn).
  assert (Fo : Forall (fun o => In o (made h)) (map (fun t => snd (fst t)) order)).
  { apply Forall_forall. intros z Hz. apply in_map_iff in Hz as ([[iz oz] xz] & <- & Hz). apply made_in. exists iz. cbn. eauto. }
  specialize (Hs _ _ Ha Fo). pose proof Bo as (l1 & l2 & l3 & E).
  destruct (Hs (map (fun t => snd (fst t)) l1) o (map (fun t => snd (fst t)) l2) o' (map (fun t => snd (fst t)) l3)
      (map snd l1) x (map snd l2) (OutFailed (EUnexpectedSeq p q)) (map snd l3) s n p q) as (om & ym & Hm & Hc);
    try (rewrite E, ?map_app; cbn [map]; rewrite ?map_app; reflexivity); try (now rewrite !map_length); auto.
  assert (Om : exists m, In (m, om, ym) l2).
  { clear -Hm. induction l2 as [|[[m o] y] l2 IH]; cbn in Hm; [contradiction|]. destruct Hm as [Hm|Hm].
    - injection Hm as -> ->. exists m. now left.
    - destruct (IH Hm) as (m' & H'). exists m'. now right. }
  destruct Om as (m & Om). apply in_split in Om as (u & v & ->).
  assert (Bim : before (i, o, x) (m, om, ym) order).
  { exists l1, u, (v ++ (j, o', OutFailed (EUnexpectedSeq p q)) :: l3). rewrite E. rewrite <- ?app_assoc. reflexivity. }
  assert (Bmj : before (m, om, ym) (j, o', OutFailed (EUnexpectedSeq p q)) order).
  { exists (l1 ++ (i, o, x) :: u), v, l3. rewrite E. rewrite <- ?app_assoc. cbn. rewrite <- ?app_assoc. reflexivity. }
  pose proof (proj2 (before_in _ _ _ Bim)) as Om.
  exists m, om, ym. split; [|split; [|split; [|split; [|split; [|split]]]]].
  - intros ->. pose proof (nodup_same _ _ _ _ Hn Oi Om eq_refl) as E3. rewrite <- E3 in Bim. exact (before_asym _ _ _ Hno Bim Bim).
  - intros ->. pose proof (nodup_same _ _ _ _ Hn Oj Om eq_refl) as E3. rewrite <- E3 in Bmj. exact (before_asym _ _ _ Hno Bmj Bmj).
  - exact (Hi _ _ _ Om).
  - exact Hc.
  - intros y' Ry. destruct (Hr _ _ Ry) as (o3 & O3). pose proof (nodup_same _ _ _ _ Hn Om O3 eq_refl). congruence.
  - intros y' By. destruct (Ht _ _ _ _ _ _ By (or_introl eq_refl) Oi) as (o3 & y3 & B3).
    pose proof (nodup_same _ _ _ _ Hn Om (proj1 (before_in _ _ _ B3)) eq_refl) as E3. rewrite <- E3 in B3. exact (before_asym _ _ _ Hno Bim B3).
  - intros y' By. destruct (Ht _ _ _ _ _ _ By (or_introl eq_refl) Om) as (o3 & y3 & B3).
    pose proof (nodup_same _ _ _ _ Hn Oj (proj1 (before_in _ _ _ B3)) eq_refl) as E3. rewrite <- E3 in B3. exact (before_asym _ _ _ Hno Bmj B3).
Qed.

Lemma hist_ids {S L Q R} (ob : obj S L Q R) s ls k : krun ob (start s) ls = Some k -> ids_once (k_hist k).
Proof.
  intros E i o o' H H'. pose proof (inv_call ob ls _ _ E) as K.
  destruct (K ltac:(intros ? ? []) _ _ H) as (p & Hp). destruct (K ltac:(intros ? ? []) _ _ H') as (p' & Hp'). congruence.
Qed.

(** C111, in memory, calls overlapping: every schedule and every cancellation. *)
Theorem C111_in_memory_overlapping_partial : forall c ls k, codec_ok c -> krun (mem_obj c) (start mem_init) ls = Some k ->
  Forall one_lock (made (k_hist k)) -> Forall (plain_call c) (made (k_hist k)) -> stays_right_busy (k_hist k).
Proof.
  intros c ls k Hc E H1 H2. eapply busy_of_order; [eapply hist_ids; exact E|exact (C57_inmemory_linearizable_partial c ls k E H1)|].
  intros ops outs <- F. apply (C111_in_memory c ops Hc). rewrite Forall_forall in *. auto.
Qed.
Print Assumptions C111_in_memory_overlapping_partial.

(** C111, LevelDB, calls overlapping (after a refused delete nothing returns: C18). *)
Theorem C111_leveldb_overlapping_partial : forall c ls k, codec_ok c -> krun (ldb_obj c) (start (s_h ldb_init)) ls = Some k ->
  Forall one_lock (made (k_hist k)) -> Forall clean_call (made (k_hist k)) -> events_in (made (k_hist k)) < two64 -> stays_right_busy (k_hist k).
Proof.
  intros c ls k Hc E H1 H2 H3. eapply busy_of_order; [eapply hist_ids; exact E|exact (C57_leveldb_linearizable_to_log_partial c ls k Hc E H1 H2 H3)|].
  intros ops outs -> _. apply log_stays.
Qed.
Print Assumptions C111_leveldb_overlapping_partial.

(** Non-vacuity: call 1 asks for the number of events and is told one; then calls 2 and 3
    are made at once, both expecting it; 2 is confirmed, 3 is refused. *)
Definition grow (e : string) : op := OpSave (Some 1) "thing!x" [thing e] None.
Definition contested (n0 n1 n2 n3 : nat) : list label :=
  [LInvoke (OpSave None "thing!x" [thing "a"] None)] ++ steps 0 n0 ++ [LInvoke (OpTotal "thing!x" None)] ++ steps 1 n1 ++
  [LInvoke (grow "b"); LInvoke (grow "c")] ++ steps 3 1 ++ steps 2 n2 ++ steps 3 n3.
Example C111_busy_inhabited_inmemory : exists k xs ys,
  krun (mem_obj toy) (start mem_init) (contested 7 4 7 5) = Some k
  /\ k_hist k = [Inv 0 (OpSave None "thing!x" [thing "a"] None); Ret 0 (OutSaved 1 xs); Inv 1 (OpTotal "thing!x" None); Ret 1 (OutTotal 1);
                 Inv 2 (grow "b"); Inv 3 (grow "c"); Ret 2 (OutSaved 2 ys); Ret 3 (OutFailed (EUnexpectedSeq 1 2))]
  /\ tells "thing!x" 1 (OpTotal "thing!x" None) (OutTotal 1) /\ expects "thing!x" 1 (grow "c")
  /\ Forall one_lock (made (k_hist k)) /\ Forall (plain_call toy) (made (k_hist k)).
Proof.
  eexists _, _, _. split; [vm_compute; reflexivity|]. split; [reflexivity|]. split; [constructor|]. split; [constructor|]. split.
  - cbn. repeat constructor.
  - assert (S : forall ex s e, plain_call toy (OpSave ex s [e] None)).
    { intros ex s e. split; [intros a b [<-|[]] [<-|[]]; auto|]. split; [now left|]. left. exact toy_total. }
    repeat apply Forall_cons; try apply S; try exact Logic.I; constructor.
Qed.
Example C111_busy_inhabited_leveldb : exists k xs ys,
  krun (ldb_obj toy) (start (s_h ldb_init)) (contested 9 1 9 7) = Some k
  /\ k_hist k = [Inv 0 (OpSave None "thing!x" [thing "a"] None); Ret 0 (OutSaved 1 xs); Inv 1 (OpTotal "thing!x" None); Ret 1 (OutTotal 1);
                 Inv 2 (grow "b"); Inv 3 (grow "c"); Ret 2 (OutSaved 2 ys); Ret 3 (OutFailed (EUnexpectedSeq 1 2))]
  /\ Forall one_lock (made (k_hist k)) /\ Forall clean_call (made (k_hist k)) /\ events_in (made (k_hist k)) < two64.
Proof.
  eexists _, _, _. split; [vm_compute; reflexivity|]. split; [reflexivity|]. repeat split.
  - cbn. repeat constructor.
  - destruct small_names_clean as (C1 & C2 & C3 & C4). cbn.
    repeat apply Forall_cons; try apply Forall_nil; cbn; repeat split; auto; try discriminate; repeat apply Forall_cons; auto.
Qed.
