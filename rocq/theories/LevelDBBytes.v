(** Byte-string facts about the LevelDB key space: order, prefixes, big-endian
    numbers, and the ordered-map operations. *)
From Verif Require Import Base LevelDB LevelDBSpec LogProofs.
From Coq Require Import Sorting.Sorted Arith.

(** * Order *)

Lemma blt_irrefl a : blt a a = false.
Proof. induction a as [|x a IH]; cbn; auto. now rewrite N.ltb_irrefl, N.eqb_refl. Qed.

Lemma ascii_eq_N x y : N_of_ascii x = N_of_ascii y -> x = y.
Proof. intros H. rewrite <- (ascii_N_embedding x), <- (ascii_N_embedding y). now rewrite H. Qed.

Lemma blt_trans a : forall b d, blt a b = true -> blt b d = true -> blt a d = true.
Proof.
  induction a as [|x a IH]; intros [|y b] [|z d]; cbn; auto; try discriminate.
  destruct (N.ltb_spec (N_of_ascii x) (N_of_ascii y)); destruct (N.ltb_spec (N_of_ascii y) (N_of_ascii z));
  destruct (N.ltb_spec (N_of_ascii x) (N_of_ascii z)); destruct (N.eqb_spec (N_of_ascii x) (N_of_ascii y));
  destruct (N.eqb_spec (N_of_ascii y) (N_of_ascii z)); destruct (N.eqb_spec (N_of_ascii x) (N_of_ascii z));
  intros; try discriminate; try lia; auto. eapply IH; eauto.
Qed.

Lemma blt_total a : forall b, blt a b = false -> a <> b -> blt b a = true.
Proof.
  induction a as [|x a IH]; intros [|y b]; cbn; auto; try congruence.
  destruct (N.ltb_spec (N_of_ascii x) (N_of_ascii y)); [discriminate|].
  destruct (N.eqb_spec (N_of_ascii x) (N_of_ascii y)) as [E|E].
  - intros Hb Hne. rewrite E, N.ltb_irrefl, N.eqb_refl. apply IH; auto.
    intros ->. apply Hne. f_equal. now apply ascii_eq_N.
  - intros _ _. replace (N_of_ascii y <? N_of_ascii x) with true; auto. symmetry. apply N.ltb_lt. lia.
Qed.

Lemma blt_asym a b : blt a b = true -> blt b a = false.
Proof.
  intros H. destruct (blt b a) eqn:E; auto. pose proof (blt_trans _ _ _ H E). now rewrite blt_irrefl in H0.
Qed.

Lemma blt_app p : forall a b, blt (p ++ a)%string (p ++ b)%string = blt a b.
Proof. induction p as [|x p IH]; intros; cbn; auto. now rewrite N.ltb_irrefl, N.eqb_refl. Qed.

(** * Strings *)

Lemma sapp_assoc a b d : ((a ++ b) ++ d = a ++ (b ++ d))%string.
Proof. induction a; cbn; congruence. Qed.
Lemma slength_app a b : (String.length (a ++ b) = String.length a + String.length b)%nat.
Proof. induction a; cbn; congruence. Qed.
Lemma sapp_inv_len a : forall a' b b', String.length a = String.length a' -> (a ++ b = a' ++ b')%string -> a = a' /\ b = b'.
Proof.
  induction a as [|x a IH]; intros [|x' a'] b b'; cbn; intros HL HE; try discriminate; auto.
  injection HE as -> HE. destruct (IH a' b b') as [-> ->]; auto.
Qed.
Lemma sapp_inv_tail a a' b b' : String.length b = String.length b' -> (a ++ b = a' ++ b')%string -> a = a' /\ b = b'.
Proof.
  intros HL HE. apply sapp_inv_len; auto. apply (f_equal String.length) in HE. rewrite !slength_app in HE. lia.
Qed.
Lemma drop_chars_app p s : drop_chars (String.length p) (p ++ s)%string = s.
Proof. induction p; cbn; auto. Qed.

Lemma has_prefix_spec p : forall s, has_prefix p s = true <-> exists r, s = (p ++ r)%string.
Proof.
  induction p as [|a p IH]; intros s; cbn.
  - split; eauto.
  - destruct s as [|b s]; [split; [discriminate|intros (r & H); discriminate]|].
    rewrite andb_true_iff, IH, Ascii.eqb_eq. split.
    + intros (-> & r & ->). eauto.
    + intros (r & H). injection H as -> ->. eauto.
Qed.
Lemma has_prefix_app p s : has_prefix p (p ++ s)%string = true.
Proof. apply has_prefix_spec. eauto. Qed.

(** * Big-endian numbers *)

Lemma be_length k : forall n, String.length (be k n) = k.
Proof. induction k; intros; cbn; auto. Qed.

Lemma pow256_pos k : 0 < 256 ^ N.of_nat k.
Proof. apply N.neq_0_lt_0, N.pow_nonzero. lia. Qed.
Lemma pow256_S k : 256 ^ N.of_nat (S k) = 256 * 256 ^ N.of_nat k.
Proof. rewrite Nat2N.inj_succ, N.pow_succ_r'. reflexivity. Qed.
Lemma top_byte k n : n < 256 ^ N.of_nat (S k) -> n / 256 ^ N.of_nat k < 256.
Proof. intros H. apply N.div_lt_upper_bound; [pose proof (pow256_pos k); lia|]. rewrite pow256_S in H. lia. Qed.

Lemma be_value_be k : forall n rest, n < 256 ^ N.of_nat k -> be_value k (be k n ++ rest) = Some n.
Proof.
  induction k as [|k IH]; intros n rest Hn.
  - cbn in *. f_equal. lia.
  - cbn [be be_value append]. pose proof (pow256_pos k).
    rewrite IH by (apply N.mod_lt; lia). f_equal.
    rewrite N_ascii_embedding by now apply top_byte.
    rewrite (N.mul_comm _ (256 ^ N.of_nat k)). symmetry. apply N.div_mod. lia.
Qed.

Lemma be_order k : forall m n, m < 256 ^ N.of_nat k -> n < 256 ^ N.of_nat k -> blt (be k m) (be k n) = (m <? n).
Proof.
  induction k as [|k IH]; intros m n Hm Hn.
  - cbn in *. replace m with 0 by lia. replace n with 0 by lia. reflexivity.
  - cbn [be blt]. pose proof (pow256_pos k) as Hp.
    rewrite !N_ascii_embedding by now apply top_byte.
    rewrite IH by (apply N.mod_lt; lia).
    pose proof (N.div_mod m (256 ^ N.of_nat k) ltac:(lia)) as Em.
    pose proof (N.div_mod n (256 ^ N.of_nat k) ltac:(lia)) as En.
    pose proof (N.mod_lt m (256 ^ N.of_nat k) ltac:(lia)) as Lm.
    pose proof (N.mod_lt n (256 ^ N.of_nat k) ltac:(lia)) as Ln.
    set (P := 256 ^ N.of_nat k) in *. set (qm := m / P) in *. set (qn := n / P) in *.
    set (rm := m mod P) in *. set (rn := n mod P) in *.
    destruct (N.ltb_spec qm qn).
    + symmetry. apply N.ltb_lt. nia.
    + destruct (N.eqb_spec qm qn) as [E|E].
      * rewrite E in Em. destruct (N.ltb_spec rm rn); symmetry; [apply N.ltb_lt|apply N.ltb_ge]; lia.
      * symmetry. apply N.ltb_ge. nia.
Qed.

Lemma two64_256 : 256 ^ N.of_nat 8 = two64.
Proof. reflexivity. Qed.

Lemma u64_length n : String.length (uint64_to_bytes n) = 8%nat.
Proof. apply be_length. Qed.
Lemma u64_roundtrip n : n < two64 -> bytes_to_uint64 (uint64_to_bytes n) = n.
Proof.
  intros H. unfold bytes_to_uint64, uint64_to_bytes.
  pose proof (be_value_be 8 n EmptyString) as E. rewrite two64_256 in E.
  replace (be 8 n ++ "")%string with (be 8 n) in E by (clear; induction (be 8 n); cbn; congruence).
  now rewrite E.
Qed.
Lemma u64_order m n : m < two64 -> n < two64 -> blt (uint64_to_bytes m) (uint64_to_bytes n) = (m <? n).
Proof. intros. apply be_order; now rewrite two64_256. Qed.
Lemma u64_inj m n : m < two64 -> n < two64 -> uint64_to_bytes m = uint64_to_bytes n -> m = n.
Proof. intros Hm Hn E. rewrite <- (u64_roundtrip m), <- (u64_roundtrip n) by auto. now rewrite E. Qed.

Lemma key_order p m n : m < two64 -> n < two64 -> blt (key_with_number p m) (key_with_number p n) = (m <? n).
Proof. intros. unfold key_with_number. rewrite blt_app. now apply u64_order. Qed.
Lemma key_inj p p' m n : m < two64 -> n < two64 -> key_with_number p m = key_with_number p' n -> p = p' /\ m = n.
Proof.
  intros Hm Hn E. apply sapp_inv_tail in E; [|now rewrite !u64_length]. destruct E as [-> E]. split; auto. now apply u64_inj.
Qed.
Lemma key_decode p n : n < two64 -> bytes_to_uint64 (drop_chars (String.length p) (key_with_number p n)) = n.
Proof. intros H. unfold key_with_number. rewrite drop_chars_app. now apply u64_roundtrip. Qed.
Lemma key_longer p n : Nat.ltb (String.length p) (String.length (key_with_number p n)) = true.
Proof. apply Nat.ltb_lt. unfold key_with_number. rewrite slength_app, u64_length. lia. Qed.

(** * Names *)

(** A prefix "s$!" matches a string "s'$!tail" only if s = s'. *)
Lemma prefix_name s : forall s' tail r, clean s -> clean s' ->
  (s' ++ "$!" ++ tail = (s ++ "$!") ++ r)%string -> s = s'.
Proof.
  induction s as [|a s IH]; intros s' tail r Hs Hs' E.
  - destruct s' as [|b s']; auto. cbn in E. injection E as -> E.
    destruct s' as [|d s']; cbn in E; [discriminate|]. injection E as -> E.
    exfalso. apply (Hs' EmptyString s'). reflexivity.
  - destruct s' as [|b s']; cbn in E.
    + injection E as <- E. destruct s as [|d s]; cbn in E; [discriminate|]. injection E as <- E.
      exfalso. apply (Hs EmptyString s). reflexivity.
    + injection E as -> E. f_equal. apply (IH s' tail r).
      * intros x y ->. apply (Hs (String a x) y). reflexivity.
      * intros x y ->. apply (Hs' (String a x) y). reflexivity.
      * exact E.
Qed.

Lemma stream_prefix_own s n : has_prefix (stream_prefix s) (key_with_number (stream_prefix s) n) = true.
Proof. apply has_prefix_app. Qed.
Lemma stream_prefix_other s s' n : clean s -> clean s' ->
  has_prefix (stream_prefix s) (key_with_number (stream_prefix s') n) = true -> s = s'.
Proof.
  intros Hs Hs' H. apply has_prefix_spec in H. destruct H as (r & H). unfold key_with_number, stream_prefix in H.
  rewrite !sapp_assoc in H. cbn [append] in H. injection H as H.
  apply (prefix_name s s' (uint64_to_bytes n) r); auto. now rewrite sapp_assoc.
Qed.
Lemma type_prefix_other s s' n : clean s -> clean s' ->
  has_prefix (type_prefix s) (key_with_number (type_prefix s') n) = true -> s = s'.
Proof.
  intros Hs Hs' H. apply has_prefix_spec in H. destruct H as (r & H). unfold key_with_number, type_prefix in H.
  rewrite !sapp_assoc in H. cbn [append] in H. injection H as H.
  apply (prefix_name s s' (uint64_to_bytes n) r); auto. now rewrite sapp_assoc.
Qed.

(** * The ordered map *)

Definition key_lt (a b : string * string) : Prop := blt (fst a) (fst b) = true.
Definition sorted (d : db) : Prop := StronglySorted key_lt d.

Lemma sorted_inv p d : sorted (p :: d) -> sorted d /\ forall q, In q d -> key_lt p q.
Proof. intros H. inversion H; subst. split; auto. now apply Forall_forall. Qed.

Lemma sorted_unique d : forall k v v', sorted d -> In (k, v) d -> In (k, v') d -> v = v'.
Proof.
  induction d as [|[k0 v0] d IH]; intros k v v' Hs H1 H2; [destruct H1|].
  destruct (sorted_inv _ _ Hs) as [Hs' Hl]. destruct H1 as [H1|H1], H2 as [H2|H2].
  - congruence.
  - injection H1 as -> ->. apply Hl in H2. unfold key_lt in H2. cbn in H2. now rewrite blt_irrefl in H2.
  - injection H2 as -> ->. apply Hl in H1. unfold key_lt in H1. cbn in H1. now rewrite blt_irrefl in H1.
  - eapply IH; eauto.
Qed.

Lemma sorted_ext d : forall d', sorted d -> sorted d' -> (forall p, In p d <-> In p d') -> d = d'.
Proof.
  induction d as [|p d IH]; intros [|p' d'] H1 H2 He; auto.
  - exfalso. apply (proj2 (He p')). now left.
  - exfalso. apply (proj1 (He p)). now left.
  - destruct (sorted_inv _ _ H1) as [S1 L1], (sorted_inv _ _ H2) as [S2 L2].
    assert (p = p').
    { destruct (proj1 (He p) (or_introl eq_refl)) as [E|E]; auto.
      destruct (proj2 (He p') (or_introl eq_refl)) as [E'|E']; auto.
      apply L2 in E. apply L1 in E'. unfold key_lt in *. rewrite (blt_asym _ _ E) in E'. discriminate. }
    subst p'. f_equal. apply IH; auto. intros q. split; intros Hq.
    + destruct (proj1 (He q) (or_intror Hq)) as [<-|]; auto. apply L1 in Hq. unfold key_lt in Hq. now rewrite blt_irrefl in Hq.
    + destruct (proj2 (He q) (or_intror Hq)) as [<-|]; auto. apply L2 in Hq. unfold key_lt in Hq. now rewrite blt_irrefl in Hq.
Qed.

Lemma db_get_spec d k v : sorted d -> (db_get k d = Some v <-> In (k, v) d).
Proof.
  induction d as [|[k0 v0] d IH]; intros Hs; cbn; [split; [discriminate|tauto]|].
  destruct (sorted_inv _ _ Hs) as [Hs' Hl].
  destruct (String.eqb_spec k k0) as [->|Hne].
  - split.
    + intros E. injection E as ->. now left.
    + intros [E|E]; [congruence|]. apply Hl in E. unfold key_lt in E. cbn in E. now rewrite blt_irrefl in E.
  - rewrite IH by auto. split; auto. intros [E|E]; auto. congruence.
Qed.
Lemma db_get_none d k : sorted d -> (forall v, ~ In (k, v) d) -> db_get k d = None.
Proof. intros Hs H. destruct (db_get k d) eqn:E; auto. apply db_get_spec in E; auto. now apply H in E. Qed.

Lemma db_put_in k v d p : In p (db_put k v d) -> p = (k, v) \/ In p d.
Proof.
  induction d as [|[k0 v0] d IH]; cbn; [intuition|].
  destruct (String.eqb_spec k k0); [|destruct (blt k k0)]; cbn; intuition.
Qed.
Lemma db_put_sorted k v d : sorted d -> sorted (db_put k v d).
Proof.
  induction d as [|[k0 v0] d IH]; intros Hs; cbn.
  - repeat constructor.
  - destruct (sorted_inv _ _ Hs) as [Hs' Hl].
    destruct (String.eqb_spec k k0) as [->|Hne].
    + constructor; auto. apply Forall_forall. intros q Hq. apply Hl in Hq. exact Hq.
    + destruct (blt k k0) eqn:E.
      * constructor; auto. constructor; [exact E|]. apply Forall_forall. intros q Hq. apply Hl in Hq.
        unfold key_lt in *. cbn in *. eapply blt_trans; eauto.
      * constructor; [now apply IH|]. apply Forall_forall. intros q Hq. apply db_put_in in Hq.
        destruct Hq as [->|Hq]; [|auto]. unfold key_lt. cbn. apply blt_total; auto.
Qed.
Lemma db_put_spec k v d k' v' : sorted d ->
  (In (k', v') (db_put k v d) <-> (k' = k /\ v' = v) \/ (k' <> k /\ In (k', v') d)).
Proof.
  induction d as [|[k0 v0] d IH]; intros Hs; cbn.
  - split; [intros [E|[]]; left; now injection E|]. intros [[-> ->]|[_ []]]. now left.
  - destruct (sorted_inv _ _ Hs) as [Hs' Hl].
    destruct (String.eqb_spec k k0) as [->|Hne].
    + cbn. split.
      * intros [E|E]; [left; injection E; auto|]. right. split; auto. intros ->. apply Hl in E. unfold key_lt in E. cbn in E. now rewrite blt_irrefl in E.
      * intros [[-> ->]|[Hn [E|E]]]; auto. congruence.
    + destruct (blt k k0) eqn:E.
      * cbn. split.
        -- intros [E'|[E'|E']]; [left; injection E'; auto| right; injection E' as <- <-; split; auto|].
           right. split; auto. intros ->. apply Hl in E'. unfold key_lt in E'. cbn in E'.
           rewrite (blt_asym _ _ E) in E'. discriminate.
        -- intros [[-> ->]|[Hn [E'|E']]]; auto.
      * cbn. rewrite IH by auto. split.
        -- intros [E'|[E'|E']]; auto; [right; injection E' as <- <-; split; auto|]. intuition.
        -- intros [[-> ->]|[Hn [E'|E']]]; auto.
Qed.
Lemma db_del_incl k d p : In p (db_del k d) -> In p d.
Proof. induction d as [|[k0 v0] d IH]; cbn; auto. destruct (String.eqb k k0); cbn; intuition. Qed.
Lemma db_del_sorted k d : sorted d -> sorted (db_del k d).
Proof.
  induction d as [|[k0 v0] d IH]; intros Hs; cbn; auto.
  destruct (sorted_inv _ _ Hs) as [Hs' Hl]. destruct (String.eqb k k0); auto.
  constructor; [now apply IH|]. apply Forall_forall. intros q Hq. apply Hl. eapply db_del_incl; eauto.
Qed.
Lemma db_del_spec k d k' v' : sorted d -> (In (k', v') (db_del k d) <-> k' <> k /\ In (k', v') d).
Proof.
  induction d as [|[k0 v0] d IH]; intros Hs; cbn; [tauto|].
  destruct (sorted_inv _ _ Hs) as [Hs' Hl]. destruct (String.eqb_spec k k0) as [->|Hne].
  - split.
    + intros E. split; auto. intros ->. apply Hl in E. unfold key_lt in E. cbn in E. now rewrite blt_irrefl in E.
    + intros [Hn [E|E]]; auto. congruence.
  - cbn. rewrite IH by auto. split; [intros [E|[E1 E2]]; auto|intuition].
    injection E as <- <-. split; auto.
Qed.

Lemma filter_sorted f d : sorted d -> sorted (filter f d).
Proof.
  induction d as [|p d IH]; intros Hs; cbn; auto. destruct (sorted_inv _ _ Hs) as [Hs' Hl].
  destruct (f p); [|now apply IH]. constructor; [now apply IH|]. apply Forall_forall. intros q Hq. apply filter_In in Hq. now apply Hl.
Qed.
Lemma scan_sorted p d : sorted d -> sorted (scan p d).
Proof. apply filter_sorted. Qed.
Lemma scan_in p d k v : In (k, v) (scan p d) <-> has_prefix p k = true /\ In (k, v) d.
Proof. unfold scan. rewrite filter_In. cbn. tauto. Qed.

Lemma seek_filter k d : sorted d -> seek k d = filter (fun kv => negb (blt (fst kv) k)) d.
Proof.
  induction d as [|[k0 v0] d IH]; intros Hs; cbn; auto. destruct (sorted_inv _ _ Hs) as [Hs' Hl].
  destruct (blt k0 k) eqn:E; cbn; auto. f_equal. symmetry.
  rewrite <- (filter_all (fun kv => negb (blt (fst kv) k)) d) at 2; auto.
  intros [k1 v1] H1. cbn. apply Hl in H1. unfold key_lt in H1. cbn in H1.
  destruct (blt k1 k) eqn:E1; auto. now rewrite (blt_trans _ _ _ H1 E1) in E.
Qed.
