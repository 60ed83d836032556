(** Facts about the log specification. *)
From Verif Require Import Base Core CoreSpec CoreProofs LogSpec.
From Coq Require Import Arith.

(** * Small list facts *)

Lemma memN_spec x l : existsb (N.eqb x) l = true <-> In x l.
Proof.
  rewrite existsb_exists. split.
  - intros (y & Hy & E). apply N.eqb_eq in E. now subst.
  - intros H. exists x. split; auto. apply N.eqb_refl.
Qed.

Lemma memN_false x l : existsb (N.eqb x) l = false <-> ~ In x l.
Proof. rewrite <- memN_spec. destruct (existsb _ _); split; intros; congruence. Qed.

Lemma filter_all {A} (f : A -> bool) l : (forall x, In x l -> f x = true) -> filter f l = l.
Proof. induction l as [|a l IH]; cbn; intros H; auto. rewrite H by auto. now rewrite IH by auto. Qed.

Lemma filter_none {A} (f : A -> bool) l : (forall x, In x l -> f x = false) -> filter f l = [].
Proof. induction l as [|a l IH]; cbn; intros H; auto. rewrite H by auto. now rewrite IH by auto. Qed.

Lemma filter_filter {A} (f g : A -> bool) l : filter f (filter g l) = filter (fun x => g x && f x) l.
Proof. induction l as [|a l IH]; cbn; auto. destruct (g a); cbn; [destruct (f a)|]; now rewrite IH. Qed.

Lemma filter_ext_in' {A} (f g : A -> bool) l : (forall x, In x l -> f x = g x) -> filter f l = filter g l.
Proof. apply filter_ext_in. Qed.

(** * Reachable logs *)

Definition of_type (t : string) (L : log) : list record :=
  filter (fun r => String.eqb (r_atype r) t) (l_recs L).

(** 1, 2, ..., n. *)
Fixpoint ssn_from (k : N) (l : list record) : Prop :=
  match l with
  | [] => True
  | r :: rest => r_ssn r = k + 1 /\ ssn_from (k + 1) rest
  end.

(** A log a store can reach. *)
Definition log_ok (L : log) : Prop :=
  gsn_increasing (l_recs L)
  /\ (forall r, In r (l_recs L) -> 0 < r_gsn r <= l_last L)
  /\ (forall s, ssn_from 0 (of_stream s L)).

Lemma log_ok_empty : log_ok empty_log.
Proof. repeat split; cbn in *; try tauto. constructor. Qed.

(** * Log algebra *)

Lemma records_from_app s evs1 : forall g k evs2,
  records_from s g k (evs1 ++ evs2) =
  records_from s g k evs1 ++ records_from s (g + N.of_nat (length evs1)) (k + N.of_nat (length evs1)) evs2.
Proof.
  induction evs1 as [|e evs1 IH]; intros g k evs2; cbn [app records_from length].
  - cbn. now rewrite !N.add_0_r.
  - rewrite IH. cbn [app]. do 3 f_equal; lia.
Qed.

Lemma records_from_length s evs : forall g k, length (records_from s g k evs) = length evs.
Proof. induction evs; intros; cbn; auto. Qed.

Lemma records_from_stream s evs : forall g k r, In r (records_from s g k evs) -> r_stream r = s.
Proof. induction evs as [|e evs IH]; intros g k r; cbn; [tauto|]. intros [<-|H]; eauto. Qed.

Lemma records_from_gsn s evs : forall g k r, In r (records_from s g k evs) ->
  g < r_gsn r <= g + N.of_nat (length evs).
Proof.
  induction evs as [|e evs IH]; intros g k r; cbn [records_from In length]; [tauto|].
  intros [<-|H]; cbn; [lia|]. specialize (IH _ _ _ H). lia.
Qed.

Lemma records_from_incr s evs : forall g k, gsn_increasing (records_from s g k evs).
Proof.
  induction evs as [|e evs IH]; intros g k; cbn [records_from]; [constructor|].
  apply incr_cons; auto. intros b Hb. apply records_from_gsn in Hb. cbn. lia.
Qed.

Lemma ssn_from_app l1 : forall k l2, ssn_from k (l1 ++ l2) <-> ssn_from k l1 /\ ssn_from (k + N.of_nat (length l1)) l2.
Proof.
  induction l1 as [|r l1 IH]; intros k l2; cbn [app ssn_from length].
  - cbn. rewrite N.add_0_r. tauto.
  - rewrite IH. replace (k + N.of_nat (S (length l1))) with (k + 1 + N.of_nat (length l1)) by lia. tauto.
Qed.

Lemma records_from_ssn s evs : forall g k, ssn_from k (records_from s g k evs).
Proof. induction evs as [|e evs IH]; intros g k; cbn; auto. Qed.

Lemma of_stream_app s l1 l2 n : of_stream s (mk_log (l1 ++ l2) n) = of_stream s (mk_log l1 n) ++ of_stream s (mk_log l2 n).
Proof. unfold of_stream. cbn. apply filter_app. Qed.

Lemma filter_same_stream s l : (forall r, In r l -> r_stream r = s) -> filter (in_stream s) l = l.
Proof. intros H. apply filter_all. intros r Hr. unfold in_stream. rewrite (H r Hr). apply String.eqb_refl. Qed.

Lemma filter_other_stream s s' l : s <> s' -> (forall r, In r l -> r_stream r = s) -> filter (in_stream s') l = [].
Proof.
  intros Hne H. apply filter_none. intros r Hr. unfold in_stream. rewrite (H r Hr).
  now apply String.eqb_neq.
Qed.

Lemma of_stream_append L s evs s' : of_stream s' (append_log L s evs) =
  of_stream s' L ++ (if String.eqb s s' then appended L s evs else []).
Proof.
  unfold of_stream, append_log. cbn. rewrite filter_app. f_equal.
  unfold appended. destruct (String.eqb_spec s s') as [<-|Hne].
  - apply filter_same_stream, records_from_stream.
  - apply (filter_other_stream s s'); auto. apply records_from_stream.
Qed.

Lemma stream_length_append L s evs : stream_length s (append_log L s evs) = stream_length s L + N.of_nat (length evs).
Proof.
  unfold stream_length. rewrite of_stream_append, String.eqb_refl, app_length.
  unfold appended. rewrite records_from_length. lia.
Qed.

Lemma append_append L s evs1 evs2 :
  append_log (append_log L s evs1) s evs2 = append_log L s (evs1 ++ evs2).
Proof.
  unfold append_log at 1 3. f_equal.
  - cbn [l_recs append_log]. rewrite <- app_assoc. f_equal.
    unfold appended. rewrite records_from_app, stream_length_append. reflexivity.
  - cbn. rewrite app_length. lia.
Qed.

Lemma appended_app L s evs1 evs2 :
  appended L s (evs1 ++ evs2) = appended L s evs1 ++ appended (append_log L s evs1) s evs2.
Proof. unfold appended. rewrite records_from_app, stream_length_append. reflexivity. Qed.

Lemma append_nil L s : append_log L s [] = L.
Proof. destruct L. unfold append_log, appended. cbn. now rewrite app_nil_r, N.add_0_r. Qed.

Lemma log_ok_append L s evs : log_ok L -> log_ok (append_log L s evs).
Proof.
  intros (Hi & Hb & Hs). repeat split.
  - cbn. apply incr_app; auto.
    + apply records_from_incr.
    + intros a b Ha Hb'. apply records_from_gsn in Hb'. specialize (Hb _ Ha). lia.
  - cbn in H. apply in_app_or in H. destruct H as [H|H]; [specialize (Hb _ H)|apply records_from_gsn in H]; lia.
  - cbn in *. apply in_app_or in H. destruct H as [H|H]; [specialize (Hb _ H)|apply records_from_gsn in H]; lia.
  - intros s'. rewrite of_stream_append. apply ssn_from_app. split; auto.
    destruct (String.eqb_spec s s') as [<-|]; [|exact I].
    cbn [N.add]. apply records_from_ssn.
Qed.

Lemma log_ok_remove L s : log_ok L -> log_ok (remove_stream s L).
Proof.
  intros (Hi & Hb & Hs). repeat split; cbn.
  - now apply incr_filter.
  - cbn in H. apply filter_In in H. destruct H as [H _]. apply Hb in H. lia.
  - cbn in H. apply filter_In in H. destruct H as [H _]. apply Hb in H. lia.
  - intros s'. unfold of_stream. cbn. rewrite filter_filter.
    destruct (String.eqb_spec s s') as [<-|Hne].
    + rewrite filter_none; [exact I|]. intros r _. unfold in_stream. destruct (String.eqb (r_stream r) s); reflexivity.
    + rewrite (filter_ext_in' _ (in_stream s')); [apply Hs|].
      intros r _. unfold in_stream. destruct (String.eqb_spec (r_stream r) s) as [->|]; cbn; auto.
      symmetry. now apply String.eqb_neq.
Qed.

Lemma log_ok_last L last : log_ok L -> l_last L <= last -> log_ok (mk_log (l_recs L) last).
Proof.
  intros (Hi & Hb & Hs) Hle. repeat split; cbn; auto.
  - apply Hb in H. lia.
  - apply Hb in H. lia.
Qed.

(** * Reads by several types *)

Lemma log_by_types_cons_perm g t ts l : ~ In t ts ->
  Permutation (filter (fun r => N.leb g (r_gsn r) && memb (r_atype r) (t :: ts)) l)
    (filter (fun r => N.leb g (r_gsn r) && memb (r_atype r) [t]) l ++
     filter (fun r => N.leb g (r_gsn r) && memb (r_atype r) ts) l).
Proof.
  intros Hni. induction l as [|r l IH]; cbn [filter app]; auto.
  assert (E : memb (r_atype r) (t :: ts) = String.eqb (r_atype r) t || memb (r_atype r) ts) by reflexivity.
  assert (E1 : memb (r_atype r) [t] = String.eqb (r_atype r) t) by (cbn; apply Bool.orb_false_r).
  rewrite E, E1. destruct (N.leb g (r_gsn r)); cbn [andb]; auto.
  destruct (String.eqb_spec (r_atype r) t) as [Et|Hne]; cbn [orb].
  - assert (memb (r_atype r) ts = false) as ->.
    { apply Bool.not_true_is_false. intros H. unfold memb in H. apply existsb_exists in H.
      destruct H as (x & Hx & Hxe). apply String.eqb_eq in Hxe. congruence. }
    cbn [app]. now constructor.
  - destruct (memb (r_atype r) ts); auto.
    rewrite <- Permutation_middle. now constructor.
Qed.

Lemma types_union g ts L : NoDup ts ->
  Permutation (log_by_types g ts L) (flat_map (fun t => log_by_types g [t] L) ts).
Proof.
  induction ts as [|t ts IH]; intros Hnd; cbn [flat_map].
  - unfold log_by_types. rewrite filter_none; auto. intros r _. cbn. apply Bool.andb_false_r.
  - inversion Hnd; subst. unfold log_by_types at 1. rewrite log_by_types_cons_perm by auto.
    apply Permutation_app; [reflexivity|now apply IH].
Qed.

Lemma before_error_map l : before_error (map RRec l) = l.
Proof. induction l; cbn; congruence. Qed.

Lemma merge_types (q : string -> list result) L g ts :
  log_ok L -> NoDup ts -> (forall t, In t ts -> q t = map RRec (log_by_types g [t] L)) ->
  merge_results (map (fun t => new_iter (q t)) ts) = Some (map RRec (log_by_types g ts L)).
Proof.
  intros Hok Hnd Hq.
  assert (D : delivered_by (map (fun t => new_iter (q t)) ts) = flat_map (fun t => log_by_types g [t] L) ts).
  { unfold delivered_by.
    clear Hnd. induction ts as [|t ts IH]; cbn [map flat_map concat]; auto.
    rewrite Hq by now left. cbn [it_chan new_iter]. rewrite before_error_map, IH; auto.
    intros; apply Hq; now right. }
  destruct Hok as (Hi & _ & _).
  assert (Hinc : gsn_increasing (log_by_types g ts L)) by now apply incr_filter.
  pose proof (types_union g ts L Hnd) as HP.
  destruct (merge_ok (map (fun t => new_iter (q t)) ts)) as (rs & E & Hs & HPr).
  - apply Forall_map, Forall_forall. intros t Ht. cbn. split; auto.
    rewrite Hq, before_error_map by auto. now apply incr_filter.
  - rewrite D. eapply Permutation_NoDup; [apply Permutation_map, HP|]. now apply incr_NoDup.
  - rewrite E. do 2 f_equal. apply incr_perm_eq; auto. rewrite HPr, D. now symmetry.
Qed.

