(** Proofs about the broadcaster. *)
From Coq Require Import PeanoNat.
From Verif Require Import Base Broadcaster BroadcasterSpec.

Definition wf (b : bcast) : Prop := NoDup (b_all b) /\ NoDup (b_types b).

Lemma same_sub_eq p q : same_sub p q = true <-> p = q.
Proof.
  unfold same_sub. destruct p as [t i], q as [u j]. cbn. rewrite andb_true_iff, String.eqb_eq, Nat.eqb_eq.
  split; [intros [-> ->]; auto|intros H; injection H; auto].
Qed.
Lemma same_sub_neq p q : same_sub p q = false <-> p <> q.
Proof. rewrite <- same_sub_eq. destruct (same_sub p q); split; congruence. Qed.

Lemma in_all_spec i b : in_all i b = true <-> In i (b_all b).
Proof.
  unfold in_all. rewrite existsb_exists. split.
  - intros (x & H & E). apply Nat.eqb_eq in E. now subst.
  - intros H. exists i. split; auto. apply Nat.eqb_refl.
Qed.
Lemma in_type_spec t i b : in_type t i b = true <-> In (t, i) (b_types b).
Proof.
  unfold in_type. rewrite existsb_exists. split.
  - intros (x & H & E). apply same_sub_eq in E. now subst.
  - intros H. exists (t, i). split; auto. now apply same_sub_eq.
Qed.

Lemma NoDup_snoc {A} (l : list A) x : NoDup l -> ~ In x l -> NoDup (l ++ [x]).
Proof.
  induction l as [|a l IH]; cbn; intros H N.
  - constructor; auto.
  - inversion H; subst. constructor.
    + rewrite in_app_iff. cbn. intros [?|[?|[]]]; subst; tauto.
    + apply IH; tauto.
Qed.

Lemma wf_add_all i b : wf b -> wf (add_all i b).
Proof.
  intros [A T]. unfold add_all. destruct (in_all i b) eqn:E; [split; auto|].
  split; cbn; auto. apply NoDup_snoc; auto. rewrite <- in_all_spec. congruence.
Qed.
Lemma wf_del_all i b : wf b -> wf (del_all i b).
Proof. intros [A T]. split; cbn; auto. now apply NoDup_filter. Qed.
Lemma wf_add_type t i b : wf b -> wf (add_type t i b).
Proof.
  intros [A T]. unfold add_type. destruct (in_type t i b) eqn:E; [split; auto|].
  split; cbn; auto. apply NoDup_snoc; auto. rewrite <- in_type_spec. congruence.
Qed.
Lemma wf_del_type t i b : wf b -> wf (del_type t i b).
Proof. intros [A T]. split; cbn; auto. now apply NoDup_filter. Qed.

Lemma existsb_app' {A} (f : A -> bool) l x : existsb f (l ++ [x]) = existsb f l || f x.
Proof. rewrite existsb_app. cbn. now rewrite orb_false_r. Qed.

Lemma in_all_add i j b : in_all i (add_all j b) = in_all i b || Nat.eqb i j.
Proof.
  unfold add_all. destruct (in_all j b) eqn:E.
  - destruct (Nat.eqb_spec i j); [subst; now rewrite E|now rewrite orb_false_r].
  - unfold in_all. cbn. now rewrite existsb_app'.
Qed.
Lemma in_all_del i j b : in_all i (del_all j b) = in_all i b && negb (Nat.eqb i j).
Proof.
  apply eq_true_iff_eq. rewrite andb_true_iff, !in_all_spec. unfold del_all. cbn.
  rewrite filter_In, !negb_true_iff, !Nat.eqb_neq. split; intros [H1 H2]; split; auto.
Qed.
Lemma in_type_add t i u j b : in_type t i (add_type u j b) = in_type t i b || (String.eqb t u && Nat.eqb i j).
Proof.
  unfold add_type. destruct (in_type u j b) eqn:E.
  - destruct (String.eqb_spec t u), (Nat.eqb_spec i j); cbn; subst; rewrite ?E, ?orb_false_r; auto.
  - unfold in_type. cbn. rewrite existsb_app'. unfold same_sub at 2. reflexivity.
Qed.
Lemma in_type_del t i u j b : in_type t i (del_type u j b) = in_type t i b && negb (String.eqb t u && Nat.eqb i j).
Proof.
  apply eq_true_iff_eq. rewrite andb_true_iff, !in_type_spec. unfold del_type. cbn.
  rewrite filter_In, !negb_true_iff, same_sub_neq, andb_false_iff, String.eqb_neq, Nat.eqb_neq.
  split; intros [H1 H2]; split; auto.
  - destruct (string_dec t u); [right|left]; congruence.
  - intros H. injection H as -> ->. destruct H2; congruence.
Qed.

(** One pass over the first map. *)
Lemma serve_all_fold r slow l : forall n, NoDup l ->
  wf (n_b n) ->
  let n' := fold_left (serve_all r slow) l n in
  wf (n_b n')
  /\ b_types (n_b n') = b_types (n_b n)
  /\ (forall i, in_all i (n_b n') = in_all i (n_b n) && negb (existsb (Nat.eqb i) l && slow i))
  /\ (forall i, n_got n' i = n_got n i ++ (if existsb (Nat.eqb i) l && negb (slow i) then [r] else []))
  /\ (forall i, n_stops n' i = (n_stops n i + (if existsb (Nat.eqb i) l && slow i then 1 else 0))%nat).
Proof.
  induction l as [|a l IH]; intros n ND W; cbn [fold_left].
  - cbn. repeat split; auto; intros; rewrite ?andb_true_r, ?app_nil_r, ?Nat.add_0_r; auto; apply W.
  - inversion ND as [|? ? Na ND']; subst.
    assert (Ha : existsb (Nat.eqb a) l = false).
    { apply not_true_iff_false. rewrite existsb_exists. intros (x & Hx & E). apply Nat.eqb_eq in E. now subst. }
    set (n1 := serve_all r slow n a).
    assert (W1 : wf (n_b n1)). { unfold n1, serve_all. destruct (slow a); cbn; auto. now apply wf_del_all. }
    destruct (IH n1 ND' W1) as (A & B & C & D & E).
    split; [exact A|]. split; [|split; [|split]].
    + rewrite B. unfold n1, serve_all. destruct (slow a); reflexivity.
    + intros i. rewrite C. cbn [existsb]. unfold n1, serve_all. destruct (slow a) eqn:Sa; cbn [n_b].
      * rewrite in_all_del. destruct (Nat.eqb_spec i a) as [->|Hn]; cbn.
        -- rewrite Ha, Sa. cbn. now rewrite !andb_false_r.
        -- now rewrite andb_true_r.
      * destruct (Nat.eqb_spec i a) as [->|Hn]; cbn; auto. rewrite Sa, !andb_false_r. reflexivity.
    + intros i. rewrite D. cbn [existsb]. unfold n1, serve_all. destruct (slow a) eqn:Sa; cbn [n_got].
      * destruct (Nat.eqb_spec i a) as [->|Hn]; cbn; auto. rewrite Ha, Sa. reflexivity.
      * unfold put. rewrite (Nat.eqb_sym a i). destruct (Nat.eqb_spec i a) as [->|Hn]; cbn; auto.
        rewrite Ha, Sa. cbn. now rewrite app_nil_r.
    + intros i. rewrite E. cbn [existsb]. unfold n1, serve_all. destruct (slow a) eqn:Sa; cbn [n_stops].
      * unfold put. rewrite (Nat.eqb_sym a i). destruct (Nat.eqb_spec i a) as [->|Hn]; cbn; auto.
        rewrite Ha, Sa. cbn. lia.
      * destruct (Nat.eqb_spec i a) as [->|Hn]; cbn; auto. rewrite Ha, Sa. reflexivity.
Qed.

(** One pass over the second map. *)
Lemma serve_type_fold r slow l : forall n, NoDup l ->
  wf (n_b n) ->
  let n' := fold_left (serve_type r slow) l n in
  wf (n_b n')
  /\ b_all (n_b n') = b_all (n_b n)
  /\ (forall t i, in_type t i (n_b n') = in_type t i (n_b n)
        && negb (String.eqb t (r_atype r) && (existsb (Nat.eqb i) l && slow i)))
  /\ (forall i, n_got n' i = n_got n i ++ (if existsb (Nat.eqb i) l && negb (slow i) then [r] else []))
  /\ (forall i, n_stops n' i = (n_stops n i + (if existsb (Nat.eqb i) l && slow i then 1 else 0))%nat).
Proof.
  induction l as [|a l IH]; intros n ND W; cbn [fold_left].
  - cbn. repeat split; auto; intros; rewrite ?andb_false_r, ?andb_true_r, ?app_nil_r, ?Nat.add_0_r; auto; try apply W.
  - inversion ND as [|? ? Na ND']; subst.
    assert (Ha : existsb (Nat.eqb a) l = false).
    { apply not_true_iff_false. rewrite existsb_exists. intros (x & Hx & E). apply Nat.eqb_eq in E. now subst. }
    set (n1 := serve_type r slow n a).
    assert (W1 : wf (n_b n1)). { unfold n1, serve_type. destruct (slow a); cbn; auto. now apply wf_del_type. }
    destruct (IH n1 ND' W1) as (A & B & C & D & E).
    split; [exact A|]. split; [|split; [|split]].
    + rewrite B. unfold n1, serve_type. destruct (slow a); reflexivity.
    + intros t i. rewrite C. cbn [existsb]. unfold n1, serve_type. destruct (slow a) eqn:Sa; cbn [n_b].
      * rewrite in_type_del. destruct (Nat.eqb_spec i a) as [->|Hn]; cbn.
        -- rewrite Ha, Sa. cbn. destruct (in_type t a (n_b n)), (String.eqb t (r_atype r)); reflexivity.
        -- destruct (in_type t i (n_b n)), (String.eqb t (r_atype r)); reflexivity.
      * destruct (Nat.eqb_spec i a) as [->|Hn]; cbn; auto. rewrite Sa, !andb_false_r. reflexivity.
    + intros i. rewrite D. cbn [existsb]. unfold n1, serve_type. destruct (slow a) eqn:Sa; cbn [n_got].
      * destruct (Nat.eqb_spec i a) as [->|Hn]; cbn; auto. rewrite Ha, Sa. reflexivity.
      * unfold put. rewrite (Nat.eqb_sym a i). destruct (Nat.eqb_spec i a) as [->|Hn]; cbn; auto.
        rewrite Ha, Sa. cbn. now rewrite app_nil_r.
    + intros i. rewrite E. cbn [existsb]. unfold n1, serve_type. destruct (slow a) eqn:Sa; cbn [n_stops].
      * unfold put. rewrite (Nat.eqb_sym a i). destruct (Nat.eqb_spec i a) as [->|Hn]; cbn; auto.
        rewrite Ha, Sa. cbn. lia.
      * destruct (Nat.eqb_spec i a) as [->|Hn]; cbn; auto. rewrite Ha, Sa. reflexivity.
Qed.

Lemma type_subs_NoDup t b : wf b -> NoDup (type_subs t b).
Proof.
  intros [_ T]. unfold type_subs. induction (b_types b) as [|[u j] l IH]; cbn; [constructor|].
  inversion T as [|? ? Nin T']; subst. specialize (IH T').
  destruct (String.eqb_spec t u) as [<-|]; cbn; auto. constructor; auto.
  rewrite in_map_iff. intros ([u' j'] & E & H). apply filter_In in H as [H F]. cbn in *.
  apply String.eqb_eq in F. subst. contradiction.
Qed.

Lemma type_subs_spec t i b : existsb (Nat.eqb i) (type_subs t b) = in_type t i b.
Proof.
  apply eq_true_iff_eq. rewrite in_type_spec, existsb_exists. unfold type_subs. split.
  - intros (x & H & E). apply Nat.eqb_eq in E. subst x. apply in_map_iff in H as ([u j] & E & H).
    apply filter_In in H as [H F]. cbn in *. apply String.eqb_eq in F. now subst.
  - intros H. exists i. split; [|apply Nat.eqb_refl]. apply in_map_iff. exists (t, i). split; auto.
    apply filter_In. cbn. now rewrite String.eqb_refl.
Qed.

Lemma broadcast_spec r s1 s2 n : wf (n_b n) ->
  let n' := broadcast_record r s1 s2 n in
  wf (n_b n')
  /\ (forall i, in_all i (n_b n') = in_all i (n_b n) && negb (s1 i))
  /\ (forall t i, in_type t i (n_b n') = in_type t i (n_b n) && negb (String.eqb t (r_atype r) && s2 i))
  /\ (forall i, n_got n' i = n_got n i
        ++ (if in_all i (n_b n) && negb (s1 i) then [r] else [])
        ++ (if in_type (r_atype r) i (n_b n) && negb (s2 i) then [r] else []))
  /\ (forall i, n_stops n' i = (n_stops n i + ((if in_all i (n_b n) && s1 i then 1 else 0)
        + (if in_type (r_atype r) i (n_b n) && s2 i then 1 else 0)))%nat).
Proof.
  intros W n'. destruct (serve_all_fold r s1 (b_all (n_b n)) n (proj1 W) W) as (W1 & T1 & A1 & G1 & S1).
  unfold n', broadcast_record.
  set (n1 := fold_left (serve_all r s1) (b_all (n_b n)) n) in *.
  destruct (serve_type_fold r s2 (type_subs (r_atype r) (n_b n1)) n1 (type_subs_NoDup _ _ W1) W1)
    as (W2 & T2 & A2 & G2 & S2).
  set (n2 := fold_left (serve_type r s2) (type_subs (r_atype r) (n_b n1)) n1) in *.
  assert (E1 : forall t i, in_type t i (n_b n1) = in_type t i (n_b n)).
  { intros t i. unfold in_type. now rewrite T1. }
  assert (E2 : forall i, in_all i (n_b n2) = in_all i (n_b n1)).
  { intros i. unfold in_all. now rewrite T2. }
  split; [exact W2|]. split; [|split; [|split]].
  - intros i. rewrite E2, A1. unfold in_all. destruct (existsb (Nat.eqb i) (b_all (n_b n))); reflexivity.
  - intros t i. rewrite A2, type_subs_spec, !E1. destruct (String.eqb_spec t (r_atype r)) as [->|]; cbn; auto.
    destruct (in_type (r_atype r) i (n_b n)); reflexivity.
  - intros i. rewrite G2, G1, type_subs_spec, E1, <- app_assoc. reflexivity.
  - intros i. rewrite S2, S1, type_subs_spec, E1. unfold in_all. lia.
Qed.

Definition matches (n : net) (past : list bmsg) : Prop :=
  wf (n_b n) /\ (forall i, in_all i (n_b n) = on_all i past) /\ (forall t i, in_type t i (n_b n) = on_type t i past).

Lemma on_all_snoc i past m : on_all i (past ++ [m]) =
  match m with
  | BSubAll j => on_all i past || Nat.eqb i j
  | BUnsubAll j => on_all i past && negb (Nat.eqb i j)
  | BRecord _ slow _ => on_all i past && negb (slow i)
  | _ => on_all i past
  end.
Proof. unfold on_all. rewrite fold_left_app. cbn. destruct m; reflexivity. Qed.
Lemma on_type_snoc t i past m : on_type t i (past ++ [m]) =
  match m with
  | BSubType u j => on_type t i past || (String.eqb t u && Nat.eqb i j)
  | BUnsubType u j => on_type t i past && negb (String.eqb t u && Nat.eqb i j)
  | BRecord r _ slow => on_type t i past && negb (String.eqb t (r_atype r) && slow i)
  | _ => on_type t i past
  end.
Proof. unfold on_type. rewrite fold_left_app. cbn. destruct m; reflexivity. Qed.

Lemma bstep_matches n past m : matches n past -> matches (bstep n m) (past ++ [m]).
Proof.
  intros (W & A & T). destruct m; cbn [bstep].
  - split; [now apply wf_add_all|]. split.
    + intros j. cbn [n_b]. now rewrite in_all_add, on_all_snoc, A.
    + intros t j. rewrite on_type_snoc. cbn [n_b]. rewrite <- T. unfold in_type, add_all.
      destruct (in_all i (n_b n)); reflexivity.
  - split; [now apply wf_del_all|]. split.
    + intros j. cbn [n_b]. now rewrite in_all_del, on_all_snoc, A.
    + intros t j. rewrite on_type_snoc. cbn [n_b]. rewrite <- T. reflexivity.
  - split; [now apply wf_add_type|]. split.
    + intros j. rewrite on_all_snoc. cbn [n_b]. rewrite <- A. unfold in_all, add_type.
      destruct (in_type t i (n_b n)); reflexivity.
    + intros u j. cbn [n_b]. now rewrite in_type_add, on_type_snoc, T.
  - split; [now apply wf_del_type|]. split.
    + intros j. rewrite on_all_snoc. cbn [n_b]. rewrite <- A. reflexivity.
    + intros u j. cbn [n_b]. now rewrite in_type_del, on_type_snoc, T.
  - destruct (broadcast_spec r slow1 slow2 n W) as (W' & A' & T' & _ & _).
    split; [exact W'|]. split.
    + intros i. now rewrite on_all_snoc, A', A.
    + intros t i. now rewrite on_type_snoc, T', T.
Qed.

Lemma brun_due ms : forall n past i, matches n past ->
  n_got (brun n ms) i = n_got n i ++ due i past ms
  /\ n_stops (brun n ms) i = (n_stops n i + stops_due i past ms)%nat.
Proof.
  induction ms as [|m ms IH]; intros n past i M; cbn [due stops_due brun fold_left].
  - rewrite app_nil_r, Nat.add_0_r. auto.
  - pose proof (bstep_matches n past m M) as M'. destruct (IH (bstep n m) (past ++ [m]) i M') as [G S].
    unfold brun in *. rewrite G, S. destruct M as (W & A & T). destruct m; cbn [bstep n_got n_stops]; auto.
    destruct (broadcast_spec r slow1 slow2 n W) as (_ & _ & _ & G' & S').
    rewrite G', S', A, T, <- !app_assoc. split; auto. lia.
Qed.

Lemma matches_init : matches net_init [].
Proof. split; [split; constructor|]. split; reflexivity. Qed.

Lemma brun_matches ms : forall n past, matches n past -> matches (brun n ms) (past ++ ms).
Proof.
  induction ms as [|m ms IH]; intros n past M; cbn; [now rewrite app_nil_r|].
  replace (past ++ m :: ms) with ((past ++ [m]) ++ ms) by now rewrite <- app_assoc.
  apply IH. now apply bstep_matches.
Qed.

Lemma due_never_on i : forall ms past,
  on_all i past = false -> (forall t, on_type t i past = false) ->
  Forall (fun m => match m with BSubAll j | BSubType _ j => j <> i | _ => True end) ms ->
  due i past ms = [].
Proof.
  induction ms as [|m ms IH]; intros past A T F; cbn; auto.
  inversion F as [|? ? Hm F']; subst.
  replace (match m with BRecord _ _ _ => _ | _ => _ end) with (@nil record).
  - cbn. apply IH; auto.
    + rewrite on_all_snoc. destruct m; rewrite ?A; auto. cbn. apply Nat.eqb_neq. congruence.
    + intros u. rewrite on_type_snoc. destruct m; rewrite ?T; auto. cbn.
      apply andb_false_iff. right. apply Nat.eqb_neq. congruence.
  - destruct m; auto. rewrite A, T. reflexivity.
Qed.

Lemma eqb_iff i j k : (j = i <-> k = i) -> Nat.eqb i j = Nat.eqb i k.
Proof. intros H. apply eq_true_iff_eq. rewrite !Nat.eqb_eq. split; intros <-; symmetry; now apply H. Qed.

Lemma due_same i : forall ms ms' past past',
  Forall2 (same_for i) ms ms' ->
  on_all i past = on_all i past' -> (forall t, on_type t i past = on_type t i past') ->
  due i past ms = due i past' ms'.
Proof.
  induction ms as [|m ms IH]; intros ms' past past' F A T; inversion F as [|? m' ? ms1 Hm F']; subst; cbn; auto.
  f_equal.
  - destruct m, m'; cbn in Hm; try contradiction; auto. destruct Hm as (-> & -> & ->). now rewrite A, T.
  - apply IH; auto.
    + rewrite !on_all_snoc. destruct m, m'; cbn in Hm; try contradiction; rewrite ?A; auto.
      * now rewrite (eqb_iff i _ _ Hm).
      * now rewrite (eqb_iff i _ _ Hm).
      * destruct Hm as (_ & -> & _). reflexivity.
    + intros u. rewrite !on_type_snoc. destruct m, m'; cbn in Hm; try contradiction; rewrite ?T; auto.
      * destruct Hm as [E Et]. rewrite (eqb_iff i _ _ E). destruct (Nat.eqb_spec i i1) as [<-|].
        -- rewrite Et; [reflexivity|]. now apply E.
        -- now rewrite !andb_false_r.
      * destruct Hm as [E Et]. rewrite (eqb_iff i _ _ E). destruct (Nat.eqb_spec i i1) as [<-|].
        -- rewrite Et; [reflexivity|]. now apply E.
        -- now rewrite !andb_false_r.
      * destruct Hm as (-> & _ & ->). reflexivity.
Qed.

Lemma stop_one_fold l : forall n i, (n_stops (fold_left stop_one l n) i >= n_stops n i)%nat
  /\ (In i l -> (n_stops (fold_left stop_one l n) i >= 1)%nat)
  /\ n_b (fold_left stop_one l n) = n_b n /\ (forall j, n_got (fold_left stop_one l n) j = n_got n j).
Proof.
  induction l as [|a l IH]; intros n i; cbn [fold_left].
  - split; [lia|]. split; [intros []|]. auto.
  - destruct (IH (stop_one n a) i) as (A & B & C & D).
    assert (H : (n_stops (stop_one n a) i >= n_stops n i)%nat).
    { cbn. unfold put. destruct (Nat.eqb_spec a i); subst; lia. }
    split; [lia|]. split; [|auto]. intros [->|Hi]; auto.
    assert ((n_stops (stop_one n i) i >= 1)%nat) by (cbn; unfold put; rewrite Nat.eqb_refl; lia). lia.
Qed.
