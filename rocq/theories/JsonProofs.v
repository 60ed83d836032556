(** Proofs about JSON payloads. *)
From Coq Require Import ZArith.
From Verif Require Import Base Json JsonSpec.
Open Scope list_scope.
Open Scope Z_scope.

(** * Rounding *)

Lemma f64_small z : Z.abs z < 2 ^ 53 -> f64 z = z.
Proof. intros H. unfold f64. apply Z.ltb_lt in H. now rewrite H. Qed.

(** The mantissa a large integer is rounded to. *)
Lemma f64_large z : 2 ^ 53 <= Z.abs z -> exists m e, f64 z = Z.sgn z * (m * 2 ^ e) /\ 1 <= e /\ 2 ^ 52 <= m <= 2 ^ 53.
Proof.
  intros H. unfold f64. destruct (Z.ltb_spec (Z.abs z) (2 ^ 53)); [lia|].
  set (e := Z.log2 (Z.abs z) - 52). set (u := 2 ^ e). set (q := Z.abs z / u). set (r := Z.abs z mod u).
  assert (Hlog : 53 <= Z.log2 (Z.abs z)) by (apply Z.log2_le_pow2; lia).
  assert (He : 1 <= e) by (unfold e; lia).
  assert (Hu : 0 < u) by (apply Z.pow_pos_nonneg; lia).
  destruct (Z.log2_spec (Z.abs z)) as [Hlo Hhi]; [lia|].
  assert (Hq : 2 ^ 52 <= q < 2 ^ 53).
  { unfold q. split.
    - apply Z.div_le_lower_bound; [lia|]. unfold u. rewrite <- Z.pow_add_r by lia. unfold e. replace (Z.log2 (Z.abs z) - 52 + 52) with (Z.log2 (Z.abs z)) by lia. exact Hlo.
    - apply Z.div_lt_upper_bound; [lia|]. unfold u. rewrite <- Z.pow_add_r by lia. unfold e.
      replace (Z.log2 (Z.abs z) - 52 + 53) with (Z.succ (Z.log2 (Z.abs z))) by lia. exact Hhi. }
  exists (if 2 * r <? u then q else if u <? 2 * r then q + 1 else if Z.even q then q else q + 1), e.
  split; [reflexivity|]. split; [exact He|].
  destruct (2 * r <? u); [lia|]. destruct (u <? 2 * r); [lia|]. destruct (Z.even q); lia.
Qed.

Lemma f64_mantissa m e : 2 ^ 52 <= m <= 2 ^ 53 -> 1 <= e -> forall s, s = 1 \/ s = -1 -> f64 (s * (m * 2 ^ e)) = s * (m * 2 ^ e).
Proof.
  intros Hm He s Hs.
  assert (Hp : 2 <= 2 ^ e) by (change 2 with (2 ^ 1) at 1; apply Z.pow_le_mono_r; lia).
  assert (Hbig : 2 ^ 53 <= m * 2 ^ e) by (change (2 ^ 53) with (2 ^ 52 * 2); apply Z.mul_le_mono_nonneg; lia).
  assert (Hexact : forall m e, 1 <= e -> 2 ^ 52 <= m < 2 ^ 53 ->
     2 ^ 53 <= m * 2 ^ e -> f64 (s * (m * 2 ^ e)) = s * (m * 2 ^ e)).
  { clear m e Hm He Hp Hbig. intros m e He Hm Hbig.
    assert (Hu : 0 < 2 ^ e) by (apply Z.pow_pos_nonneg; lia).
    assert (Habs : Z.abs (s * (m * 2 ^ e)) = m * 2 ^ e) by (destruct Hs; subst s; lia).
    assert (Hsgn : Z.sgn (s * (m * 2 ^ e)) = s) by (destruct Hs; subst s; lia).
    unfold f64. rewrite Habs, Hsgn.
    destruct (Z.ltb_spec (m * 2 ^ e) (2 ^ 53)); [lia|].
    assert (Hlog : Z.log2 (m * 2 ^ e) = 52 + e).
    { apply Z.log2_unique; [lia|]. split.
      - rewrite Z.pow_add_r by lia. nia.
      - replace (Z.succ (52 + e)) with (53 + e) by lia. rewrite Z.pow_add_r by lia. nia. }
    rewrite Hlog. replace (52 + e - 52) with e by lia.
    rewrite Z.div_mul, Z.mod_mul by lia. change (2 * 0) with 0.
    destruct (Z.ltb_spec 0 (2 ^ e)); [reflexivity|lia]. }
  destruct (Z.eq_dec m (2 ^ 53)) as [->|Hne].
  - replace (2 ^ 53 * 2 ^ e) with (2 ^ 52 * 2 ^ (e + 1)) by (rewrite Z.pow_add_r by lia; lia).
    apply Hexact; [lia|lia|]. rewrite Z.pow_add_r by lia. lia.
  - apply Hexact; auto. lia.
Qed.

Lemma f64_idem z : f64 (f64 z) = f64 z.
Proof.
  destruct (Z.lt_ge_cases (Z.abs z) (2 ^ 53)) as [H|H].
  - now rewrite !f64_small by (rewrite ?f64_small; exact H).
  - destruct (f64_large z H) as (m & e & -> & He & Hm). apply f64_mantissa; auto. lia.
Qed.

Lemma f64_inv z p : Z.abs z < 2 ^ 53 -> f64 p = z -> p = z.
Proof.
  intros H E. destruct (Z.lt_ge_cases (Z.abs p) (2 ^ 53)) as [Hp|Hp].
  - now rewrite f64_small in E.
  - exfalso. destruct (f64_large p Hp) as (m & e & E' & He & Hm). rewrite E' in E. subst z.
    assert (2 <= 2 ^ e) by (change 2 with (2 ^ 1) at 1; apply Z.pow_le_mono_r; lia).
    assert (Z.abs (Z.sgn p * (m * 2 ^ e)) = m * 2 ^ e) by (destruct (Z.sgn_spec p) as [[? ->]|[[? ->]|[? ->]]]; lia).
    nia.
Qed.

(** * Trees *)

Section JInd.
Variable P : json -> Prop.
Hypothesis Hnull : P JNull.
Hypothesis Hbool : forall b, P (JBool b).
Hypothesis Hnum : forall n, P (JNum n).
Hypothesis Hstr : forall s, P (JStr s).
Hypothesis Harr : forall l, Forall P l -> P (JArr l).
Hypothesis Hobj : forall l, Forall (fun p => P (snd p)) l -> P (JObj l).
Fixpoint json_ind' (j : json) : P j :=
  match j with
  | JNull => Hnull | JBool b => Hbool b | JNum n => Hnum n | JStr s => Hstr s
  | JArr l => Harr l ((fix go l : Forall P l := match l with [] => Forall_nil _ | x :: r => Forall_cons x (json_ind' x) (go r) end) l)
  | JObj l => Hobj l ((fix go l : Forall (fun p => P (snd p)) l :=
                 match l with [] => Forall_nil _ | x :: r => Forall_cons x (json_ind' (snd x)) (go r) end) l)
  end.
End JInd.

Section GInd.
Variable P : goval -> Prop.
Hypothesis Hnil : P GNil.
Hypothesis Hbool : forall b, P (GBool b).
Hypothesis Hfl : forall f, P (GFloat f).
Hypothesis Hnum : forall n, P (GNumber n).
Hypothesis Hstr : forall s, P (GStr s).
Hypothesis Hsl : forall l, Forall P l -> P (GSlice l).
Hypothesis Hmap : forall l, Forall (fun p => P (snd p)) l -> P (GMap l).
Fixpoint goval_ind' (j : goval) : P j :=
  match j with
  | GNil => Hnil | GBool b => Hbool b | GFloat f => Hfl f | GNumber n => Hnum n | GStr s => Hstr s
  | GSlice l => Hsl l ((fix go l : Forall P l := match l with [] => Forall_nil _ | x :: r => Forall_cons x (goval_ind' x) (go r) end) l)
  | GMap l => Hmap l ((fix go l : Forall (fun p => P (snd p)) l :=
                 match l with [] => Forall_nil _ | x :: r => Forall_cons x (goval_ind' (snd x)) (go r) end) l)
  end.
End GInd.

(** * Maps *)

Lemma compare_refl k : String.compare k k = Eq.
Proof. induction k; cbn; auto. unfold Ascii.compare. now rewrite N.compare_refl. Qed.
Lemma compare_eq k k' : String.compare k k' = Eq -> k = k'.
Proof. apply String.compare_eq_iff. Qed.
Lemma compare_gt k k' : String.compare k k' = Gt <-> String.compare k' k = Lt.
Proof. rewrite String.compare_antisym. destruct (String.compare k' k); cbn; split; congruence. Qed.
Lemma compare_trans a b c : String.compare a b = Lt -> String.compare b c = Lt -> String.compare a c = Lt.
Proof.
  revert b c. induction a as [|x a IH]; intros b c; destruct b as [|y b], c as [|z c]; cbn; try congruence.
  unfold Ascii.compare.
  destruct (N.compare_spec (N_of_ascii x) (N_of_ascii y)), (N.compare_spec (N_of_ascii y) (N_of_ascii z)),
           (N.compare_spec (N_of_ascii x) (N_of_ascii z)); try congruence; try lia; intros; eauto.
Qed.

Lemma sorted_tail {A} k (v : A) l : keys_sorted ((k, v) :: l) -> keys_sorted l.
Proof. destruct l as [|[k' v'] l]; cbn; tauto. Qed.
Lemma sorted_below {A} k (v : A) l : keys_sorted ((k, v) :: l) -> forall k' x, In (k', x) l -> String.compare k k' = Lt.
Proof.
  revert k v. induction l as [|[k1 v1] l IH]; intros k v H k' x Hin; [contradiction|].
  destruct H as [H1 H2]. destruct Hin as [E|Hin]; [injection E as <- _; exact H1|].
  eapply compare_trans; [exact H1|]. eapply IH; eauto.
Qed.

Lemma last_member_none {A} k (l : list (string * A)) : (forall k' x, In (k', x) l -> k <> k') -> last_member k l = None.
Proof.
  induction l as [|[k' v] l IH]; cbn; intros H; [reflexivity|]. rewrite IH by (intros; eapply H; eauto).
  destruct (String.eqb_spec k k') as [->|]; [|reflexivity]. now destruct (H k' v (or_introl eq_refl)).
Qed.

Lemma put_keys {A} k (v : A) m k' x : In (k', x) (put k v m) -> (k' = k /\ x = v) \/ In (k', x) m.
Proof.
  induction m as [|[k1 v1] m IH]; cbn; [intros [E|[]]; injection E as <- <-; auto|].
  destruct (String.compare k k1); cbn; intros [E|H]; try (injection E as <- <-); auto.
  destruct (IH H); auto.
Qed.

Lemma put_sorted {A} k (v : A) m : keys_sorted m -> keys_sorted (put k v m).
Proof.
  induction m as [|[k1 v1] m IH]; intros H; [exact Logic.I|]. cbn [put].
  destruct (String.compare k k1) eqn:E.
  - apply compare_eq in E as ->. destruct m as [|[k2 v2] m]; [exact Logic.I|]. exact H.
  - split; [exact E|exact H].
  - specialize (IH (sorted_tail _ _ _ H)).
    destruct m as [|[k2 v2] m]; cbn [put] in *; [split; [now apply compare_gt|exact Logic.I]|].
    destruct (String.compare k k2) eqn:E2; (split; [|exact IH]).
    + now apply compare_gt.
    + now apply compare_gt.
    + now destruct H.
Qed.

Lemma put_member {A} k (v : A) m : keys_sorted m -> forall k', last_member k' (put k v m) = if String.eqb k' k then Some v else last_member k' m.
Proof.
  induction m as [|[k1 v1] m IH]; intros Hs k'; cbn [put last_member]; [reflexivity|].
  assert (Hnone : forall q, String.compare q k1 = Lt -> last_member q m = None).
  { intros q Hq. apply last_member_none. intros q' x Hx E. subst q'.
    pose proof (sorted_below _ _ _ Hs _ _ Hx) as H1. pose proof (compare_trans _ _ _ Hq H1) as H2.
    rewrite compare_refl in H2. discriminate. }
  destruct (String.compare k k1) eqn:E; cbn [last_member].
  - apply compare_eq in E as ->. destruct (String.eqb_spec k' k1) as [->|].
    + rewrite last_member_none; [reflexivity|]. intros q x Hx <-. pose proof (sorted_below _ _ _ Hs _ _ Hx) as H1.
      rewrite compare_refl in H1. discriminate.
    + now destruct (last_member k' m).
  - destruct (String.eqb_spec k' k) as [->|]; [|now destruct (last_member k' m), (String.eqb k' k1)].
    rewrite (Hnone k E). destruct (String.eqb_spec k k1) as [->|]; [|reflexivity]. rewrite compare_refl in E. discriminate.
  - rewrite (IH (sorted_tail _ _ _ Hs)). destruct (String.eqb_spec k' k) as [->|]; [reflexivity|reflexivity].
Qed.

Section Floats.
Variable of_lit : string -> float.
Variable show : float -> num.
Notation dec_ := (decode of_lit).
Notation enc_ := (encode show).

Definition members (exact : bool) := fix go (acc : list (string * goval)) (l : list (string * json)) :=
  match l with [] => acc | (k, v) :: rest => go (put k (dec_ exact v) acc) rest end.

Lemma decode_obj exact l : dec_ exact (JObj l) = GMap (members exact [] l).
Proof. reflexivity. Qed.

Lemma members_sorted exact l : forall acc, keys_sorted acc -> keys_sorted (members exact acc l).
Proof. induction l as [|[k v] l IH]; intros acc H; cbn [members]; auto. apply IH. now apply put_sorted. Qed.

Lemma members_find exact l : forall acc k, keys_sorted acc ->
  last_member k (members exact acc l) =
  match last_member k l with Some j => Some (dec_ exact j) | None => last_member k acc end.
Proof.
  induction l as [|[k0 v] l IH]; intros acc k H; cbn [members last_member]; [reflexivity|].
  rewrite IH by now apply put_sorted. destruct (last_member k l); [reflexivity|].
  rewrite put_member by exact H. now destruct (String.eqb k k0).
Qed.

(** What is found in a text is found, decoded, in the value. *)
Lemma decode_at exact path : forall j x, at_ path j = Some x -> find path (dec_ exact j) = Some (dec_ exact x).
Proof.
  induction path as [|st path IH]; intros j x H; cbn in H; [injection H as ->; reflexivity|].
  destruct st as [i|k].
  - destruct j; try discriminate. cbn [decode find]. rewrite nth_error_map.
    destruct (nth_error l i); [|discriminate]. cbn. now apply IH.
  - destruct j; try discriminate. rewrite decode_obj. cbn [find]. rewrite members_find by exact Logic.I.
    destruct (last_member k l); [|discriminate]. now apply IH.
Qed.

Lemma member_map (f : goval -> json) k l :
  last_member k (map (fun p => (fst p, f (snd p))) l) = match last_member k l with Some v => Some (f v) | None => None end.
Proof.
  induction l as [|[k' v] l IH]; cbn; [reflexivity|]. rewrite IH. destruct (last_member k l); [reflexivity|].
  now destruct (String.eqb k k').
Qed.

Lemma encode_find path : forall v x, find path v = Some x -> at_ path (enc_ v) = Some (enc_ x).
Proof.
  induction path as [|st path IH]; intros v x H; cbn in H; [injection H as ->; reflexivity|].
  destruct st as [i|k].
  - destruct v; try discriminate. cbn [encode at_]. rewrite nth_error_map.
    destruct (nth_error l i); [|discriminate]. cbn. now apply IH.
  - destruct v; try discriminate. cbn [encode at_]. rewrite member_map.
    destruct (last_member k l); [|discriminate]. now apply IH.
Qed.

(** * Decoding inverts encoding *)

Lemma put_last (l : list (string * goval)) k v : (forall k' x, In (k', x) l -> String.compare k' k = Lt) -> put k v l = l ++ [(k, v)].
Proof.
  induction l as [|[k' x] l IH]; intros H; cbn [put app]; [reflexivity|].
  pose proof (H k' x (or_introl eq_refl)) as E. apply compare_gt in E. rewrite E. f_equal. apply IH. intros; eapply H; right; eauto.
Qed.

Lemma members_back exact l : forall acc, keys_sorted (acc ++ l) ->
  Forall (fun p => dec_ exact (enc_ (snd p)) = snd p) l ->
  members exact acc (map (fun p => (fst p, enc_ (snd p))) l) = acc ++ l.
Proof.
  induction l as [|[k v] l IH]; intros acc Hs Hf; cbn [members map fst snd]; [now rewrite app_nil_r|].
  inversion Hf as [|? ? H1 H2]; subst. cbn [snd] in H1. rewrite H1, put_last.
  - rewrite IH; [now rewrite <- app_assoc|now rewrite <- app_assoc|exact H2].
  - clear -Hs. induction acc as [|[k0 v0] acc IHa]; intros k' x Hin; [contradiction|].
    destruct Hin as [E|Hin].
    + injection E as <- <-. apply (sorted_below k0 v0 (acc ++ (k, v) :: l) Hs k v). apply in_or_app. right. now left.
    + eapply IHa; eauto. now apply sorted_tail in Hs.
Qed.

Lemma decode_encode exact v : (exact = false -> prints_back of_lit show) -> value_of of_lit exact v -> dec_ exact (enc_ v) = v.
Proof.
  intros Hshow. induction v using goval_ind'; intros Hv; cbn [encode]; try reflexivity.
  - inversion Hv; subst. cbn. f_equal. now apply Hshow.
  - inversion Hv; subst. reflexivity.
  - cbn. f_equal. rewrite map_map. inversion Hv as [| | | | | ? Hl|]; subst. clear Hv.
    induction H as [|x l Hx Hf IHl]; [reflexivity|]. cbn. rewrite Hx by (apply Hl; now left). f_equal. apply IHl. intros; apply Hl; now right.
  - rewrite decode_obj. inversion Hv as [| | | | | |? Hs Hl]; subst.
    rewrite members_back; [reflexivity|exact Hs|].
    clear Hs Hv. induction H as [|[k x] l Hx Hf IHl]; constructor.
    + apply Hx. eapply Hl. now left.
    + apply IHl. intros; eapply Hl; right; eauto.
Qed.

Lemma decode_value exact j : value_of of_lit exact (dec_ exact j).
Proof.
  induction j using json_ind'; [constructor|constructor| |constructor| |].
  - cbn. destruct exact; constructor; auto. now exists n.
  - cbn. constructor. intros x Hx. apply in_map_iff in Hx as (y & <- & Hy). rewrite Forall_forall in H. now apply H.
  - rewrite decode_obj. constructor; [now apply members_sorted|].
    assert (Hg : forall acc, (forall k x, In (k, x) acc -> value_of of_lit exact x) ->
      forall k x, In (k, x) (members exact acc l) -> value_of of_lit exact x).
    { induction H as [|[k0 v0] l Hx Hf IHl]; intros acc Ha k x Hin; cbn [members] in Hin; [eauto|].
      eapply IHl; [|exact Hin]. intros k1 x1 H1. apply put_keys in H1 as [[_ ->]|H1]; eauto. }
    apply Hg. intros k x [].
Qed.

End Floats.
