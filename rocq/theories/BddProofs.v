(** Proofs about the test helper. *)
From Coq Require Import PeanoNat Permutation.
From Verif Require Import Base LogProofs Bdd.

Section Proofs.
Variables (E : Type) (same : E -> E -> bool) (bound : E -> bool) (stream_of : E -> string).
Hypothesis same_eq : forall a b, same a b = true <-> a = b.

Lemma same_list_eq a : forall b, same_list E same a b = true <-> a = b.
Proof.
  induction a as [|x a IH]; intros [|y b]; cbn; try (split; congruence).
  rewrite Bool.andb_true_iff, same_eq, IH. split; [intros [-> ->]; auto|intros [= -> ->]; auto].
Qed.

Definition own (s : string) (l : list E) : list E := filter (fun e => String.eqb (stream_of e) s) l.

Lemma of_stream_app s a b : of_stream E s (a ++ b) = of_stream E s a ++ of_stream E s b.
Proof. unfold of_stream. now rewrite filter_app, map_app. Qed.
Lemma of_stream_own s l : of_stream E s (map (fun e => (stream_of e, e)) l) = own s l.
Proof.
  unfold of_stream, own. induction l as [|e l IH]; cbn; auto. destruct (String.eqb (stream_of e) s); cbn; now rewrite IH.
Qed.

(** What is read of a stream after the previous events. *)
Lemma new_events c raised s : from_number E (previous E stream_of c s + 1) s (raises raised (prepare E stream_of c []))
  = of_stream E s raised.
Proof.
  unfold from_number, raises, prepare. cbn [app]. rewrite of_stream_app, of_stream_own.
  replace (previous E stream_of c s + 1 - 1)%nat with (length (own s c)) by (unfold previous, own; lia).
  rewrite skipn_app, skipn_all, Nat.sub_diag. reflexivity.
Qed.

Lemma bound_all l : (forall e, In e l -> bound e = true) -> forallb bound l = true.
Proof. intros H. now apply forallb_forall. Qed.

Lemma of_stream_in s st e : In e (of_stream E s st) -> In (s, e) st.
Proof.
  unfold of_stream. intros H. apply in_map_iff in H as ([s' e'] & <- & H). apply filter_In in H as [H Eq].
  cbn in *. apply String.eqb_eq in Eq as ->. auto.
Qed.

Lemma expected_iff c raised expected cut :
  expected <> [] -> (forall s e, In (s, e) raised -> bound e = true) ->
  then_ E same bound stream_of c (raises raised) expected cut no_cut [] = true
  <-> forall s, In s (map stream_of expected) -> of_stream E s raised = own s expected.
Proof.
  intros NE B. unfold then_. destruct expected as [|e0 ex] eqn:Ex; [congruence|]. rewrite <- Ex. clear Ex.
  rewrite forallb_forall. split; intros H s Hs; specialize (H s Hs); unfold stream_ok in *; rewrite new_events in *; unfold to_slice, no_cut in *;
    rewrite (bound_all (of_stream E s raised)) in * by (intros e He; apply of_stream_in in He; eauto).
  - apply same_list_eq in H. unfold own. auto.
  - apply same_list_eq. unfold own in H. auto.
Qed.

Lemma nothing_iff c raised cuts :
  (forall e, In e c -> bound e = true) -> (forall s e, In (s, e) raised -> bound e = true) ->
  then_ E same bound stream_of c (raises raised) [] None cuts [] = true <-> raised = [].
Proof.
  intros Bc B. unfold then_, to_slice.
  rewrite bound_all.
  - rewrite Nat.eqb_eq, map_length. unfold raises, prepare. rewrite app_length. cbn [app]. rewrite map_length.
    destruct raised; cbn; split; intros; auto; try lia. discriminate.
  - intros e He. apply in_map_iff in He as ([s e'] & <- & He). unfold raises, prepare in He. cbn [app] in He.
    apply in_app_iff in He as [He|He]; [|eauto]. apply in_map_iff in He as (x & [= <- <-] & Hx). cbn. auto.
Qed.

Lemma own_count (dec : forall a b : E, {a = b} + {a <> b}) e l :
  count_occ dec (own (stream_of e) l) e = count_occ dec l e.
Proof.
  unfold own. induction l as [|x l IH]; cbn; auto. destruct (dec x e) as [->|N].
  - rewrite String.eqb_refl. cbn. destruct (dec e e); [|congruence]. now rewrite IH.
  - destruct (String.eqb (stream_of x) (stream_of e)); cbn; [destruct (dec x e); [congruence|]|]; auto.
Qed.

Lemma own_perm a b : (forall s, own s a = own s b) -> Permutation a b.
Proof.
  assert (dec : forall a b : E, {a = b} + {a <> b}).
  { intros x y. destruct (same x y) eqn:S; [left; now apply same_eq|right]. intros ->. assert (same y y = true) by now apply same_eq. congruence. }
  intros H. apply (Permutation_count_occ dec). intros e. rewrite <- (own_count dec e a), <- (own_count dec e b). now rewrite H.
Qed.

Lemma own_stream_of raised s : in_own_stream stream_of raised -> of_stream E s raised = own s (map snd raised).
Proof.
  unfold of_stream, own. induction raised as [|[s' e] t IH]; cbn; intros H; auto.
  rewrite <- (H s' e (or_introl eq_refl)).
  destruct (String.eqb s' s); cbn; (rewrite IH; [auto|]); intros s0 e0 K; apply H; now right.
Qed.

Lemma own_none s l : ~ In s (map stream_of l) -> own s l = [].
Proof.
  intros N. unfold own. induction l as [|e l IH]; cbn; auto. destruct (String.eqb_spec (stream_of e) s) as [<-|_].
  - exfalso. apply N. now left.
  - apply IH. intros K. apply N. now right.
Qed.

Lemma exact_perm c raised expected cut :
  expected <> [] -> (forall s e, In (s, e) raised -> bound e = true) -> in_own_stream stream_of raised ->
  (forall s e, In (s, e) raised -> In s (map stream_of expected)) ->
  then_ E same bound stream_of c (raises raised) expected cut no_cut [] = true ->
  Permutation (map snd raised) expected /\ forall s, own s (map snd raised) = own s expected.
Proof.
  intros NE B O C T. rewrite expected_iff in T by auto.
  assert (K : forall s, own s (map snd raised) = own s expected).
  { intros s. destruct (in_dec String.string_dec s (map stream_of expected)) as [I|N].
    - rewrite <- own_stream_of by auto. now apply T.
    - rewrite (own_none s expected N). apply own_none. intros K. apply N.
      apply in_map_iff in K as (e & <- & K). apply in_map_iff in K as ([s' e'] & <- & K). cbn.
      rewrite <- (O s' e' K). eauto. }
  split; auto. now apply own_perm.
Qed.

(** Events in streams that no expected event is in. *)
Lemma others_unseen c raised extra expected cut cuts st :
  expected <> [] -> (forall s e, In (s, e) extra -> ~ In s (map stream_of expected)) ->
  then_ E same bound stream_of c (raises (raised ++ extra)) expected cut cuts st
  = then_ E same bound stream_of c (raises raised) expected cut cuts st.
Proof.
  intros NE H. unfold then_. destruct expected as [|e0 ex] eqn:Ex; [congruence|]. rewrite <- Ex in *. clear Ex.
  apply Bool.eq_true_iff_eq. rewrite !forallb_forall.
  assert (K : forall s, In s (map stream_of expected) -> stream_ok E same bound stream_of c expected cuts (raises (raised ++ extra) (prepare E stream_of c st)) s
    = stream_ok E same bound stream_of c expected cuts (raises raised (prepare E stream_of c st)) s).
  { intros s Hs. unfold stream_ok, from_number, raises. rewrite app_assoc, (of_stream_app s (_ ++ raised) extra).
    assert (Z : of_stream E s extra = []).
    { unfold of_stream. rewrite filter_none; auto. intros [s' e] Hp. cbn. apply String.eqb_neq. intros ->. now apply (H s e Hp). }
    rewrite Z, app_nil_r. reflexivity. }
  split; intros T s Hs; [rewrite <- K by auto|rewrite K by auto]; auto.
Qed.

(** A read that fails just after the expected events. *)
Lemma failing_read_passes c s expected more cut :
  expected <> [] -> (forall e, In e expected -> stream_of e = s /\ bound e = true) ->
  then_ E same bound stream_of c (raises (map (fun e => (s, e)) (expected ++ more))) expected cut
    (fun _ => Some (length expected)) [] = true.
Proof.
  intros NE H. unfold then_. destruct expected as [|e0 ex] eqn:Ex; [congruence|]. rewrite <- Ex in *. clear Ex.
  apply forallb_forall. intros s' Hs. apply in_map_iff in Hs as (e & <- & He). destruct (H e He) as [-> _].
  unfold stream_ok. rewrite new_events.
  assert (O : of_stream E s (map (fun e => (s, e)) (expected ++ more)) = expected ++ more).
  { unfold of_stream. clear. induction (expected ++ more) as [|x l IH]; cbn; auto. rewrite String.eqb_refl. cbn. now rewrite IH. }
  assert (W : own s expected = expected).
  { unfold own. clear - H. induction expected as [|x l IH]; cbn; auto. destruct (H x (or_introl eq_refl)) as [-> _].
    rewrite String.eqb_refl. f_equal. apply IH. intros e He. apply H. now right. }
  rewrite O. unfold to_slice. rewrite firstn_app, firstn_all, Nat.sub_diag, firstn_O, app_nil_r.
  rewrite bound_all by (intros x Hx; now apply H). apply same_list_eq. exact W.
Qed.

(** A store that is not empty. *)
Lemma used_store_fails st cuts : st <> [] -> (forall s e, In (s, e) st -> bound e = true) ->
  forall c, (forall e, In e c -> bound e = true) ->
  then_ E same bound stream_of c (raises []) [] None cuts st = false.
Proof.
  intros NE B c Bc. unfold then_, to_slice. rewrite bound_all.
  - apply Nat.eqb_neq. unfold raises, prepare. rewrite app_nil_r, map_length, app_length, map_length. destruct st; [congruence|]. cbn. lia.
  - intros e He. apply in_map_iff in He as ([s e'] & <- & He). unfold raises, prepare in He. rewrite app_nil_r in He.
    apply in_app_iff in He as [He|He]; [eauto|]. apply in_map_iff in He as (x & [= <- <-] & Hx). cbn. auto.
Qed.

Lemma used_store_passes s old cut : old <> [] -> (forall e, In e old -> stream_of e = s /\ bound e = true) ->
  then_ E same bound stream_of [] (raises []) old cut no_cut (map (fun e => (s, e)) old) = true.
Proof.
  intros NE H. unfold then_. destruct old as [|e0 ex] eqn:Ex; [congruence|]. rewrite <- Ex in *. clear Ex.
  apply forallb_forall. intros s' Hs. apply in_map_iff in Hs as (e & <- & He). destruct (H e He) as [-> _].
  unfold stream_ok, from_number, raises, prepare. cbn [map previous]. rewrite !app_nil_r. cbn [length filter Nat.add Nat.sub skipn].
  assert (O : of_stream E s (map (fun e => (s, e)) old) = old).
  { unfold of_stream. clear. induction old as [|x l IH]; cbn; auto. rewrite String.eqb_refl. cbn. now rewrite IH. }
  assert (W : own s old = old).
  { unfold own. clear - H. induction old as [|x l IH]; cbn; auto. destruct (H x (or_introl eq_refl)) as [-> _].
    rewrite String.eqb_refl. f_equal. apply IH. intros x' Hx. apply H. now right. }
  rewrite O. unfold to_slice, no_cut. rewrite bound_all by (intros x Hx; now apply H). apply same_list_eq. exact W.
Qed.

(** Inspection. *)
Lemma inspected_own c raised keys : in_own_stream stream_of raised ->
  Permutation keys (streams E stream_of (raises raised (prepare E stream_of c []))) ->
  forall s, own s (inspected E stream_of c (raises raised) keys []) = own s (map snd raised).
Proof.
  intros O P s. unfold inspected.
  assert (F : flat_map (fun s0 => from_number E (previous E stream_of c s0 + 1) s0 (raises raised (prepare E stream_of c []))) keys
    = flat_map (fun s0 => own s0 (map snd raised)) keys).
  { clear P. induction keys as [|k keys IH]; cbn [flat_map]; auto. rewrite IH, new_events, own_stream_of; auto. }
  rewrite F.
  assert (ND : NoDup keys) by (eapply Permutation_NoDup; [symmetry; exact P|apply NoDup_nodup]).
  assert (OO : forall s1 s2 l, own s1 (own s2 l) = if String.eqb s2 s1 then own s2 l else []).
  { intros s1 s2 l. unfold own. induction l as [|x l IH]; cbn; [destruct (String.eqb _ _); auto|].
    destruct (String.eqb_spec (stream_of x) s2) as [E2|N2]; cbn; auto.
    destruct (String.eqb_spec (stream_of x) s1) as [E1|N1]; destruct (String.eqb_spec s2 s1) as [E3|N3]; try congruence; rewrite IH; auto. }
  assert (A : forall ks, NoDup ks -> own s (flat_map (fun s0 => own s0 (map snd raised)) ks) = if in_dec String.string_dec s ks then own s (map snd raised) else []).
  { induction ks as [|k ks IH]; intros N; [reflexivity|]. apply NoDup_cons_iff in N as [N1 N2]. cbn [flat_map].
    unfold own at 1. rewrite filter_app. fold (own s (own k (map snd raised))). fold (own s (flat_map (fun s0 => own s0 (map snd raised)) ks)).
    rewrite OO, (IH N2).
    destruct (String.eqb_spec k s) as [->|Nk].
    - destruct (in_dec String.string_dec s ks); [contradiction|]. rewrite app_nil_r. destruct (in_dec String.string_dec s (s :: ks)) as [|X]; auto. exfalso. apply X. now left.
    - cbn [app]. destruct (in_dec String.string_dec s ks) as [I|I], (in_dec String.string_dec s (k :: ks)) as [J|J]; auto.
      + exfalso. apply J. now right.
      + exfalso. destruct J; congruence. }
  rewrite (A keys ND). destruct (in_dec String.string_dec s keys) as [I|N]; auto.
  symmetry. apply own_none. intros K. apply N. apply (Permutation_in s (Permutation_sym P)). unfold streams. apply nodup_In.
  apply in_map_iff in K as (e & <- & K). apply in_map_iff in K as (p & <- & K). apply in_map_iff. exists p. split; auto.
  unfold raises. apply in_app_iff. auto.
Qed.

Lemma inspected_perm c raised keys : in_own_stream stream_of raised ->
  Permutation keys (streams E stream_of (raises raised (prepare E stream_of c []))) ->
  Permutation (inspected E stream_of c (raises raised) keys []) (map snd raised).
Proof. intros O P. apply own_perm. now apply inspected_own. Qed.
End Proofs.
