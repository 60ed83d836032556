(** Decoding of records from JSON values: exactly what JsonRecordSpec.v says. *)
From Coq Require Import ZArith PeanoNat.
From Verif Require Import Base Text DecText Json JsonSpec JsonProofs JsonText JsonTextSpec JsonTextProofs JsonGrammar JsonGrammarProofs JsonGrammarReads
  RecordIo RecordIoSpec RecordIoProofs JsonRecordSpec.
Open Scope string_scope.
Open Scope N_scope.

(** * Names *)

Lemma fold_byte_same a b : fold_byte a = fold_byte b <-> same_letter a b.
Proof.
  unfold fold_byte, same_letter. pose proof (byte_bound a) as Ba. pose proof (byte_bound b) as Bb.
  assert (E : forall x y, x = y <-> N_of_ascii x = N_of_ascii y).
  { intros x y. split; [now intros ->|]. intros H. rewrite <- (ascii_N_embedding x), H. apply ascii_N_embedding. }
  rewrite (E a b), (E (if between 65 90 (N_of_ascii a) then _ else _)).
  destruct (between 65 90 (N_of_ascii a)) eqn:Ca; destruct (between 65 90 (N_of_ascii b)) eqn:Cb;
    try (apply between_spec in Ca); try (apply between_spec in Cb);
    try (apply not_true_iff_false in Ca; rewrite between_spec in Ca); try (apply not_true_iff_false in Cb; rewrite between_spec in Cb);
    rewrite ?N_ascii_embedding by lia; lia.
Qed.
Lemma fold_name_same s : forall t, fold_name s = fold_name t <-> same_but_case s t.
Proof.
  unfold same_but_case. induction s as [|a s IH]; intros [|b t]; cbn [fold_name list_ascii_of_string].
  - split; [constructor|reflexivity].
  - split; [discriminate|intros H; inversion H].
  - split; [discriminate|intros H; inversion H].
  - split.
    + intros [= H1 H2]. constructor; [now apply fold_byte_same|now apply IH].
    + intros H. inversion H as [|? ? ? ? H1 H2]; subst. f_equal; [now apply fold_byte_same|now apply IH].
Qed.

Lemma find_named k (l : list (string * field)) :
  match List.find (fun p => String.eqb (fst p) k) l with Some p => fst p = k /\ In k (map fst l) | None => ~ In k (map fst l) end.
Proof.
  induction l as [|[n f] l IH]; [intros []|]. cbn [List.find map fst In]. destruct (String.eqb_spec n k) as [->|N]; [auto|].
  destruct (List.find _ l) as [p|]; [destruct IH; auto|]. intros [H|H]; auto.
Qed.
Lemma find_folded k (l : list (string * field)) :
  match List.find (fun p => String.eqb (fold_name (fst p)) (fold_name k)) l with
  | Some p => exists before after, map fst l = (before ++ fst p :: after)%list /\ same_but_case (fst p) k /\ forall m, In m before -> ~ same_but_case m k
  | None => forall m, In m (map fst l) -> ~ same_but_case m k end.
Proof.
  induction l as [|[n f] l IH]; [intros m []|]. cbn [List.find map fst]. destruct (String.eqb_spec (fold_name n) (fold_name k)) as [E|N].
  - exists [], (map fst l). split; [reflexivity|]. split; [now apply fold_name_same|intros m []].
  - assert (Nn : ~ same_but_case n k) by (intros H; apply N; now apply fold_name_same).
    destruct (List.find _ l) as [p|].
    + destruct IH as (before & after & E & Hp & Hb). exists (n :: before)%list, after. rewrite E. split; [reflexivity|]. split; [exact Hp|].
      intros m [<-|Hm]; auto.
    + intros m [<-|Hm]; auto.
Qed.

Lemma first_unique k b1 n1 a1 b2 n2 a2 : (b1 ++ n1 :: a1)%list = (b2 ++ n2 :: a2)%list -> same_but_case n1 k -> same_but_case n2 k ->
  (forall m, In m b1 -> ~ same_but_case m k) -> (forall m, In m b2 -> ~ same_but_case m k) -> n1 = n2.
Proof.
  revert b2. induction b1 as [|x b1 IH]; intros [|y b2] E S1 S2 H1 H2; cbn in E; injection E as E1 E2.
  - exact E1.
  - exfalso. apply (H2 y); [now left|congruence].
  - exfalso. apply (H1 x); [now left|congruence].
  - apply (IH b2 E2 S1 S2); intros m Hm; [apply H1|apply H2]; now right.
Qed.
Lemma means_fun ns k n1 n2 : means ns k n1 -> means ns k n2 -> n1 = n2.
Proof.
  intros [[I1 ->]|(I1 & b1 & a1 & E1 & S1 & H1)] [[I2 ->]|(I2 & b2 & a2 & E2 & S2 & H2)]; try reflexivity; try contradiction.
  rewrite E1 in E2. eapply first_unique; eassumption.
Qed.

Lemma field_named_means k l : match field_named k l with Some n => means (map fst l) k n | None => forall n, ~ means (map fst l) k n end.
Proof.
  unfold field_named. pose proof (find_named k l) as F. destruct (List.find (fun p => String.eqb (fst p) k) l) as [p|].
  - destruct F as [E F]. left. auto.
  - pose proof (find_folded k l) as G. destruct (List.find (fun p => String.eqb (fold_name (fst p)) (fold_name k)) l) as [p|].
    + right. auto.
    + intros n [[I _]|(_ & b & a & E & S & _)]; [contradiction|]. apply (G n); [rewrite E; apply in_elt|exact S].
Qed.

(** * Values *)

Lemma sorted_ext {A} (l : list (string * A)) : forall l', keys_sorted l -> keys_sorted l' -> (forall k, last_member k l = last_member k l') -> l = l'.
Proof.
  assert (Head : forall k v (l : list (string * A)), keys_sorted ((k, v) :: l) -> last_member k ((k, v) :: l) = Some v).
  { intros k v m H. cbn. rewrite last_member_none, String.eqb_refl; [reflexivity|]. intros k' x Hx ->.
    pose proof (sorted_below _ _ _ H _ _ Hx) as C. rewrite compare_refl in C. discriminate. }
  assert (Low : forall k v (l : list (string * A)) k', keys_sorted ((k, v) :: l) -> String.compare k' k = Lt -> last_member k' ((k, v) :: l) = None).
  { intros k v m k' H L. apply last_member_none. intros k2 x [E|Hx] ->.
    - injection E as <- _. rewrite compare_refl in L. discriminate.
    - pose proof (sorted_below _ _ _ H _ _ Hx) as C. pose proof (compare_trans _ _ _ L C) as X. rewrite compare_refl in X. discriminate. }
  induction l as [|[k v] l IH]; intros [|[k' v'] l'] H H' E.
  - reflexivity.
  - specialize (E k'). rewrite Head in E by exact H'. discriminate.
  - specialize (E k). rewrite Head in E by exact H. discriminate.
  - destruct (String.compare k k') eqn:C.
    + apply compare_eq in C. subst k'. assert (V : v = v') by (pose proof (E k) as X; rewrite !Head in X by assumption; congruence). subst v'. f_equal.
      apply IH; [now apply sorted_tail in H|now apply sorted_tail in H'|]. intros n. pose proof (E n) as X. cbn [last_member] in X.
      destruct (string_dec n k) as [En|N].
      * subst n. rewrite !last_member_none; [reflexivity| |]; intros k2 x Hx ->;
          [pose proof (sorted_below _ _ _ H' _ _ Hx) as D|pose proof (sorted_below _ _ _ H _ _ Hx) as D]; rewrite compare_refl in D; discriminate.
      * apply String.eqb_neq in N. rewrite N in X. destruct (last_member n l), (last_member n l'); congruence.
    + exfalso. specialize (E k). rewrite Head, (Low k' v' l' k) in E by assumption. discriminate.
    + exfalso. apply compare_gt in C. specialize (E k'). rewrite (Head k' v' l'), (Low k v l k') in E by assumption. discriminate.
Qed.

Lemma last_member_in {A} k (l : list (string * A)) x : last_member k l = Some x -> In (k, x) l.
Proof.
  induction l as [|[k' v] l IH]; [discriminate|]. cbn. destruct (last_member k l) as [y|].
  - intros [= ->]. right. auto.
  - destruct (String.eqb_spec k k') as [->|]; [|discriminate]. intros [= ->]. now left.
Qed.

Lemma exact_obj ms : exists l, exact (JObj ms) = GMap l /\ keys_sorted l
  /\ forall k, last_member k l = match last_member k ms with Some x => Some (exact x) | None => None end.
Proof.
  unfold exact. rewrite decode_obj. eexists. split; [reflexivity|]. split; [apply members_sorted; exact Logic.I|].
  intros k. rewrite members_find by exact Logic.I. cbn. destruct (last_member k ms); reflexivity.
Qed.

Lemma exact_holds j : forall v, exact j = v <-> holds j v.
Proof.
  induction j as [|b|n|s|l IH|ms IH] using json_ind'; intros v.
  - split; [intros <-; constructor|intros H; inversion H; reflexivity].
  - split; [intros <-; constructor|intros H; inversion H; reflexivity].
  - split; [intros <-; constructor|intros H; inversion H; reflexivity].
  - split; [intros <-; constructor|intros H; inversion H; reflexivity].
  - change (exact (JArr l)) with (GSlice (map exact l)). split.
    + intros <-. constructor; [now rewrite map_length|]. intros i x v Hx Hv. rewrite nth_error_map, Hx in Hv. injection Hv as <-.
      rewrite Forall_forall in IH. apply (IH x); [|reflexivity]. eapply nth_error_In; eassumption.
    + intros H. inversion H as [| | | |l0 l' Hlen Hall|]; subst. f_equal. clear H. revert l' Hlen Hall. induction IH as [|x l Hx Hl IHl]; intros [|v l'] Hlen Hall; try discriminate; [reflexivity|].
      cbn [map]. f_equal; [apply Hx; exact (Hall O x v eq_refl eq_refl)|]. apply IHl; [now injection Hlen|]. intros i y w Hy Hw. exact (Hall (S i) y w Hy Hw).
  - destruct (exact_obj ms) as (l & E & Hs & Hl). rewrite E. rewrite Forall_forall in IH. split.
    + intros <-. constructor; [exact Hs| |].
      * intros k. rewrite Hl. destruct (last_member k ms); split; congruence.
      * intros k x v Hx Hv. rewrite Hl, Hx in Hv. injection Hv as <-. apply (IH (k, x)); [now apply last_member_in|reflexivity].
    + intros H. inversion H as [| | | | |ms0 l' Hs' Hn Hall]; subst. f_equal. apply sorted_ext; [exact Hs|exact Hs'|].
      intros k. rewrite Hl. destruct (last_member k ms) as [x|] eqn:Ex.
      * destruct (last_member k l') as [v|] eqn:Ev; [|apply Hn in Ev; congruence]. f_equal.
        apply (IH (k, x)); [now apply last_member_in|]. exact (Hall k x v Ex Ev).
      * symmetry. now apply Hn.
Qed.

Lemma set_field_sets f j f' : set_field f j = Some f' <-> sets f j f'.
Proof.
  split.
  - destruct f as [s|z|n|b|v|raw held]; cbn [set_field].
    + destruct j; try discriminate; intros [= <-]; constructor.
    + destruct j as [| |[z'|t]| | |]; try discriminate.
      * intros [= <-]; constructor.
      * destruct (_ && _) eqn:E; [|discriminate]. intros [= <-]. constructor. lia.
      * destruct t as [|a [|b [|c t]]]; try discriminate;
          destruct a as [[] [] [] [] [] [] [] []]; try discriminate; destruct b as [[] [] [] [] [] [] [] []]; try discriminate. intros [= <-]. constructor.
    + destruct j as [| |[z'|t]| | |]; try discriminate.
      * intros [= <-]; constructor.
      * destruct (_ && _) eqn:E; [|discriminate]. intros [= <-]. replace z' with (Z.of_N (Z.to_N z')) at 1 by lia. constructor. lia.
    + destruct j; try discriminate; intros [= <-]; constructor.
    + intros H. assert (E : f' = TAny (exact j)) by (destruct j; now injection H). subst f'. constructor. now apply exact_holds.
    + destruct held; [|intros [= <-]; constructor]. destruct j; intros [= <-]; constructor; discriminate.
  - intros H. destruct H as [v j v' H|s s'|s|z z' H|z|z|n n' H|n|b b'|b|raw j H|raw|raw j]; try reflexivity.
    + cbn. apply exact_holds in H. now subst v'.
    + cbn [set_field]. replace (_ && _) with true by lia. reflexivity.
    + cbn [set_field]. replace (_ && _) with true by lia. now rewrite N2Z.id.
    + destruct j; try reflexivity. contradiction.
Qed.

(** * Structs *)

Lemma f2_compose {A B C} (P : A -> B -> Prop) (Q : B -> C -> Prop) (R : A -> C -> Prop) l1 l2 l3 :
  (forall a b c, P a b -> Q b c -> R a c) -> Forall2 P l1 l2 -> Forall2 Q l2 l3 -> Forall2 R l1 l3.
Proof. intros H HP. revert l3. induction HP; intros l3 HQ; inversion HQ; subst; constructor; eauto. Qed.
Lemma f2_impl {A B} (P Q : A -> B -> Prop) l l' : (forall a b, P a b -> Q a b) -> Forall2 P l l' -> Forall2 Q l l'.
Proof. intros H HP. induction HP; constructor; auto. Qed.
Lemma f2_split {A B C} (P : A -> B -> Prop) (Q : B -> C -> Prop) (R : A -> C -> Prop) l1 l3 :
  (forall a c, R a c -> exists b, P a b /\ Q b c) -> Forall2 R l1 l3 -> exists l2, Forall2 P l1 l2 /\ Forall2 Q l2 l3.
Proof.
  intros H HR. induction HR as [|a c l1 l3 Hac HR (l2 & HP & HQ)]; [exists []; auto|].
  destruct (H a c Hac) as (b & Hb1 & Hb2). exists (b :: l2)%list. auto.
Qed.

Definition stepped (n : string) (j : json) (p q : string * field) : Prop :=
  fst p = fst q /\ (fst p = n -> sets (snd p) j (snd q)) /\ (fst p <> n -> snd q = snd p).

Lemma assign_stepped n j l : NoDup (map fst l) -> forall l', assign n j l = Some l' <-> Forall2 (stepped n j) l l'.
Proof.
  induction l as [|[k f] l IH]; intros Hnd l'; cbn [assign].
  - split; [intros [= <-]; constructor|intros H; inversion H; reflexivity].
  - inversion Hnd as [|? ? Nk Hnd']; subst. destruct (String.eqb_spec k n) as [->|N].
    + assert (Same : forall m m', ~ In n (map fst m) -> Forall2 (stepped n j) m m' <-> m' = m).
      { clear. induction m as [|[k f] m IH]; intros m' Hn; (split; [intros H|intros ->]).
        - now inversion H.
        - constructor.
        - inversion H as [|? [k' f'] ? m0 (E1 & _ & E2) H2]; subst. cbn in *. subst k'. rewrite E2 by tauto. f_equal. apply IH; tauto.
        - constructor; [split; [reflexivity|]; split; cbn in *; [tauto|reflexivity]|]. apply IH; [cbn in Hn; tauto|reflexivity]. }
      split.
      * destruct (set_field f j) as [f'|] eqn:E; [|discriminate]. intros [= <-]. constructor.
        -- split; [reflexivity|]. split; [intros _; now apply set_field_sets|cbn; congruence].
        -- now apply Same.
      * intros H. inversion H as [|? [k' f'] ? m0 (E1 & E2 & _) H2]; subst. cbn in *. subst k'. apply set_field_sets in E2; [|reflexivity]. rewrite E2.
        apply Same in H2; [|exact Nk]. now subst m0.
    + split.
      * destruct (assign n j l) as [l0|] eqn:E; [|discriminate]. intros [= <-]. constructor.
        -- split; [reflexivity|]. split; cbn; [congruence|reflexivity].
        -- now apply IH.
      * intros H. inversion H as [|? [k' f'] ? m0 (E1 & _ & E2) H2]; subst. cbn in *. subst k'. rewrite E2 by exact N. apply IH in H2; [|exact Hnd']. now rewrite H2.
Qed.

Lemma decode_tells ns ms : clean ns ms -> forall l, map fst l = ns -> NoDup ns -> forall l',
  decode_struct l ms = Some l' <-> Forall2 (fun z f => fst z = fst f /\ tells ns ms (fst z) (snd z) (snd f)) l l'.
Proof.
  induction ms as [|[k j] ms IH]; intros Hc l El Hnd l'; cbn [decode_struct].
  - split.
    + intros [= <-]. clear. induction l as [|[k f] l IH]; constructor; [|exact IH]. split; [reflexivity|]. right. split; [intros ? ? []|reflexivity].
    + intros H. f_equal. clear -H. induction H as [|[k f] [k' f'] l l' [E [(?&?&[]&_)|[_ F]]] H IH]; [reflexivity|]. cbn in *. congruence.
  - destruct Hc as [Hk Hc]. pose proof (field_named_means k l) as F. rewrite El in F. destruct (field_named k l) as [n|].
    + assert (NotRest : forall k' j', In (k', j') ms -> ~ means ns k' n) by (intros k' j' Hin; exact (Hk n k' j' F Hin)).
      split.
      * destruct (assign n j l) as [l1|] eqn:E; [|discriminate]. intros H. apply assign_stepped in E; [|now rewrite El].
        assert (El1 : map fst l1 = ns) by (rewrite <- El; clear -E; induction E as [|p q l l' (E1 & _) _ IH]; cbn; congruence).
        apply (IH Hc l1 El1 Hnd) in H. refine (f2_compose _ _ _ _ _ _ _ E H).
        intros [k1 f1] [k2 f2] [k3 f3] (E1 & S1 & S2) (E2 & T). cbn [fst snd] in *. subst k2 k3. split; [reflexivity|].
        destruct (string_dec k1 n) as [->|N].
        -- destruct T as [(k' & j' & Hin & Hm & _)|[_ ->]]; [exfalso; exact (NotRest _ _ Hin Hm)|].
           left. exists k, j. split; [now left|]. split; [exact F|]. now apply S1.
        -- rewrite S2 in T by exact N. destruct T as [(k' & j' & Hin & Hm & Hs)|[Hno ->]].
           ++ left. exists k', j'. split; [now right|]. auto.
           ++ right. split; [|reflexivity]. intros k' j' [E'|Hin] Hm; [|exact (Hno _ _ Hin Hm)].
              injection E' as <- <-. apply N. eapply means_fun; eassumption.
      * intros H. apply (f2_split (stepped n j) (fun z f => fst z = fst f /\ tells ns ms (fst z) (snd z) (snd f))) in H.
        -- destruct H as (l1 & H1 & H2). assert (El1 : map fst l1 = ns) by (rewrite <- El; clear -H1; induction H1 as [|p q l l' (E1 & _) _ IH]; cbn; congruence).
           apply assign_stepped in H1; [|now rewrite El]. rewrite H1. now apply (IH Hc l1 El1 Hnd).
        -- intros [k1 f1] [k3 f3] (E & T). cbn [fst snd] in *. subst k3. destruct (string_dec k1 n) as [->|N].
           ++ exists (n, f3). split.
              ** split; [reflexivity|]. cbn. split; [|congruence]. intros _. destruct T as [(k' & j' & [E'|Hin] & Hm & Hs)|[Hno _]].
                 --- injection E' as <- <-. exact Hs.
                 --- exfalso. exact (NotRest _ _ Hin Hm).
                 --- exfalso. apply (Hno k j); [now left|exact F].
              ** cbn. split; [reflexivity|]. right. auto.
           ++ exists (k1, f1). split; [split; [reflexivity|]; split; cbn; [congruence|reflexivity]|]. cbn. split; [reflexivity|].
              destruct T as [(k' & j' & [E'|Hin] & Hm & Hs)|[Hno ->]].
              ** injection E' as <- <-. exfalso. apply N. eapply means_fun; eassumption.
              ** left. eauto.
              ** right. split; [|reflexivity]. intros k' j' Hin. apply (Hno k' j'). now right.
    + rewrite (IH Hc l El Hnd l'). split; intros H; refine (f2_impl _ _ _ _ _ H); intros [k1 f1] [k3 f3] (E & T); (split; [exact E|]); cbn [fst snd] in *.
      * destruct T as [(k' & j' & Hin & Hm & Hs)|[Hno ->]].
        -- left. exists k', j'. split; [now right|]. auto.
        -- right. split; [|reflexivity]. intros k' j' [E'|Hin] Hm; [injection E' as <- <-; exact (F _ Hm)|exact (Hno _ _ Hin Hm)].
      * destruct T as [(k' & j' & [E'|Hin] & Hm & Hs)|[Hno ->]].
        -- injection E' as <- <-. exfalso. exact (F _ Hm).
        -- left. eauto.
        -- right. split; [|reflexivity]. intros k' j' Hin. apply (Hno k' j'). now right.
Qed.

Lemma decode_fills ms zero l : clean (map fst zero) ms -> NoDup (map fst zero) -> decode_struct zero ms = Some l <-> fills ms zero l.
Proof. intros Hc Hn. now apply decode_tells. Qed.

(** * Records *)

Section Records.
Variable types : string -> option (list (string * field)).
Hypothesis Proper : proper types.

Lemma decode_data_says t j d : (forall ms zero, j = JObj ms -> types t = Some zero -> clean (map fst zero) ms) ->
  decode_data types t (Some j) = Some d <-> data_says types t j d.
Proof.
  intros Hc. unfold decode_data, data_says. destruct (types t) as [zero|] eqn:E.
  - split.
    + destruct j as [| | | | |ms]; try discriminate. destruct (decode_struct zero ms) as [l|] eqn:D; [|discriminate]. intros [= <-].
      exists ms, l. split; [reflexivity|]. split; [reflexivity|]. apply decode_fills; [now apply Hc|now apply (Proper t)|exact D].
    + intros (ms & l & -> & -> & H). apply decode_fills in H; [|now apply Hc|now apply (Proper t)]. now rewrite H.
  - split.
    + intros [= <-]. exists (exact j). split; [reflexivity|]. now apply exact_holds.
    + intros (v & -> & H). apply exact_holds in H. now subst v.
Qed.

Lemma names_distinct : NoDup record_names.
Proof. repeat constructor; cbn; intuition discriminate. Qed.

Lemma unmarshal_says j e : tidy types j -> unmarshal types j = Some e <-> record_says types j e.
Proof.
  intros Ht. destruct j as [| | | | |ms]; try (split; [discriminate|intros (ms & E & _); discriminate]).
  destruct (Ht ms eq_refl) as [Hc Hd].
  pose proof (decode_tells record_names ms Hc empty_record eq_refl names_distinct) as D. unfold unmarshal. split.
  - destruct (decode_struct empty_record ms) as [l|]; [|discriminate]. pose proof (proj1 (D l) eq_refl) as H. clear D. unfold empty_record in H.
    repeat match goal with H : Forall2 _ (_ :: _) _ |- _ => inversion H as [|? [? ?] ? ? [? ?] ?]; subst; clear H end.
    match goal with H : Forall2 _ [] _ |- _ => inversion H; subst; clear H end. cbn [fst snd] in *. subst.
    repeat match goal with |- match ?f with _ => _ end = _ -> _ => is_var f; destruct f; try discriminate end.
    match goal with |- match decode_data types ?t ?r with _ => _ end = _ -> _ => destruct (decode_data types t r) as [d|] eqn:Dd; [|discriminate] end.
    intros [= <-]. exists ms. split; [reflexivity|]. cbn [e_stream e_atype e_aid e_gsn e_ssn e_ts e_eid e_etype e_data e_meta].
    do 9 (split; [assumption|]).
    match goal with H : tells record_names ms "data" _ _ |- _ => destruct H as [(k & j & Hin & Hm & Hs)|[_ E]] end.
    + exists k, j. split; [exact Hin|]. split; [exact Hm|]. inversion Hs as [| | | | | | | | | |raw0 j0 Hj|raw0|]; subst; [|discriminate Dd].
      split; [exact Hj|]. apply decode_data_says; [|exact Dd]. intros ms' zero -> Hz. exact (Hd k ms' _ zero Hin Hm Hz).
    + injection E as -> ->. discriminate Dd.
  - intros (ms0 & E & H1 & H2 & H3 & H4 & H5 & H6 & H7 & H8 & H10 & k & j & Hin & Hm & Hj & Hdata). injection E as <-.
    rewrite (proj2 (D [("streamName", TText (e_stream e)); ("aggregateType", TText (e_atype e)); ("aggregateID", TText (e_aid e));
      ("globalSequenceNumber", TUint (e_gsn e)); ("streamSequenceNumber", TUint (e_ssn e)); ("insertTimestamp", TUint (e_ts e));
      ("eventID", TText (e_eid e)); ("eventType", TText (e_etype e)); ("data", TRaw (Some j) true); ("metadata", TAny (e_meta e))])).
    + apply decode_data_says in Hdata. { rewrite Hdata. now destruct e. } intros ms' zero -> Hz. exact (Hd k ms' _ zero Hin Hm Hz).
    + unfold empty_record. repeat apply Forall2_cons; try apply Forall2_nil; cbn [fst snd]; (split; [reflexivity|]); try assumption.
      left. exists k, j. split; [exact Hin|]. split; [exact Hm|]. now constructor.
Qed.

(** * Streams *)

(** What comes of JSON values one after the other. *)
Fixpoint outcome (js : list json) : list item :=
  match js with
  | [] => []
  | j :: rest => match unmarshal types j with Some e => (Rec e :: outcome rest)%list | None => [Bad EDeserialize] end
  end.

Lemma outcome_all js es : Forall (tidy types) js -> Forall2 (record_says types) js es -> outcome js = map Rec es.
Proof.
  intros Ht H. induction H as [|j e js es Hj H IH]; [reflexivity|]. inversion Ht; subst. apply unmarshal_says in Hj; [|assumption].
  cbn [outcome map]. rewrite Hj, IH by assumption. reflexivity.
Qed.
Lemma outcome_bad js es j rest : Forall (tidy types) js -> tidy types j -> Forall2 (record_says types) js es -> (forall e, ~ record_says types j e) ->
  outcome (js ++ j :: rest) = (map Rec es ++ [Bad EDeserialize])%list.
Proof.
  intros Ht Hj H Hno. induction H as [|j' e js es He H IH]; cbn [app outcome map].
  - destruct (unmarshal types j) as [e|] eqn:E; [|reflexivity]. apply unmarshal_says in E; [|exact Hj]. now apply Hno in E.
  - inversion Ht; subst. apply unmarshal_says in He; [|assumption]. rewrite He, IH by assumption. reflexivity.
Qed.

Definition going (f : nat) (array : bool) (s : string) : list item :=
  match read_value s with
  | None => [Bad EDeserialize]
  | Some (j, s2) => match unmarshal types j with None => [Bad EDeserialize] | Some e => (Rec e :: records_from types f array true s2)%list end
  end.

Lemma first_step f array w c r : blanks w -> blank c = false -> c <> "]"%char -> c <> "}"%char ->
  records_from types (S f) array false (w ++ String c r) = going f array (w ++ String c r).
Proof.
  intros Hw Hb N1 N2. cbn [records_from]. rewrite skip_blanks, skip_head by assumption. apply Ascii.eqb_neq in N1, N2. rewrite N1, N2, andb_false_r. reflexivity.
Qed.
Lemma next_step f started w c r : blanks w -> blank c = false -> c <> "]"%char -> c <> "}"%char ->
  records_from types (S f) false started (w ++ String c r) = going f false (w ++ String c r).
Proof.
  intros Hw Hb N1 N2. cbn [records_from]. rewrite skip_blanks, skip_head by assumption. apply Ascii.eqb_neq in N1, N2. rewrite N1, N2. reflexivity.
Qed.
Lemma comma_step f w r : blanks w -> records_from types (S f) true true (w ++ String "," r) = going f true r.
Proof. intros Hw. cbn [records_from]. rewrite skip_blanks, skip_head by (assumption || reflexivity). reflexivity. Qed.
Lemma close_step f array started w r : blanks w -> records_from types (S f) array started (w ++ String "]" r) = [].
Proof. intros Hw. cbn [records_from]. rewrite skip_blanks, skip_head by (assumption || reflexivity). reflexivity. Qed.
Lemma end_step f array started w : blanks w -> records_from types f array started w = [].
Proof. intros Hw. destruct f as [|f]; [reflexivity|]. cbn [records_from]. apply skip_nothing in Hw. now rewrite Hw. Qed.

Lemma going_items l body : items_text max_nesting l body -> forall f rest, (String.length body <= f)%nat ->
  going f true (body ++ String "]" rest) = outcome l.
Proof.
  remember max_nesting as d eqn:Ed. intros H. induction H as [d x t w1 w2 H1 H2 Ht|d x t w1 w2 l body H1 H2 Ht H IH]; intros f rest Hf; subst d;
    destruct (JsonGrammarReads.text_head _ _ _ Ht) as (c & r & Et & _); rewrite !app_length_s in Hf; unfold going; rewrite !app_assoc_s.
  - rewrite (read_reads _ _ _ _ H1 Ht) by (intros _; apply blanks_end; [exact H2|apply bracket_ends]). cbn [outcome].
    destruct (unmarshal types x) as [e|]; [|reflexivity]. rewrite Et in Hf. cbn [String.length] in Hf. destruct f as [|f]; [lia|]. now rewrite close_step.
  - cbn [append]. rewrite (read_reads _ _ _ _ H1 Ht) by (intros _; apply blanks_end; [exact H2|apply comma_ends]). cbn [outcome].
    destruct (unmarshal types x) as [e|]; [|reflexivity]. rewrite Et in Hf. cbn [String.length append] in Hf. destruct f as [|f]; [lia|]. rewrite comma_step by exact H2.
    rewrite IH by (reflexivity || lia). reflexivity.
Qed.

Lemma read_array l s : array_text l s -> json_read types s = outcome l.
Proof.
  intros H. unfold json_read. destruct H as [w w' rest Hw Hw'|w l body rest Hw H]; rewrite skip_blanks by exact Hw; cbn [append]; rewrite skip_head by reflexivity;
    change (Ascii.eqb "[" "[") with true; cbv iota.
  - now apply close_step.
  - change 10000 with max_nesting in H.
    assert (Hh : exists w c r, body = w ++ String c r /\ blanks w /\ blank c = false /\ c <> "]"%char /\ c <> "}"%char).
    { destruct H as [d x t w1 w2 H1 H2 Ht|d x t w1 w2 l body H1 H2 Ht H]; destruct (JsonGrammarReads.text_head _ _ _ Ht) as (c & r & -> & Hb & Hc & Hc');
        exists w1, c; eexists; cbn [append]; (split; [reflexivity|auto]). }
    destruct Hh as (w1 & c & r & E & Hw1 & Hb & N1 & N2).
    transitivity (going (String.length (body ++ String "]" rest)) true (body ++ String "]" rest)).
    + rewrite E, app_assoc_s. cbn [append]. now apply first_step.
    + apply going_items; [exact H|]. rewrite app_length_s. lia.
Qed.

Lemma read_series l s : series l s -> forall f started, (String.length s < f)%nat -> records_from types f false started s = outcome l.
Proof.
  intros H. induction H as [w Hw|w j t l s Hw Ht Hn H IH]; intros f started Hf.
  - now apply end_step.
  - change 10000 with max_nesting in Ht. rewrite !app_length_s in Hf. destruct (JsonGrammarReads.text_head _ _ _ Ht) as (c & r & Et & Hb & N1 & N2).
    destruct f as [|f]; [lia|]. transitivity (going f false (w ++ t ++ s)).
    + rewrite Et. cbn [append]. now apply next_step.
    + unfold going. rewrite (read_reads _ _ _ _ Hw Ht).
      * cbn [outcome]. destruct (unmarshal types j) as [e|]; [|reflexivity]. rewrite IH; [reflexivity|]. rewrite Et in Hf. cbn [String.length] in Hf. lia.
      * intros E. destruct j; try discriminate. now apply (Hn n).
Qed.
End Records.
