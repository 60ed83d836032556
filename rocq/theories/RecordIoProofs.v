(** Record streams in JSON read back. *)
From Coq Require Import ZArith PeanoNat.
From Verif Require Import Base DecText Text Json JsonSpec JsonProofs JsonText JsonTextSpec JsonTextProofs RecordIo RecordIoSpec.
Open Scope string_scope.
Open Scope N_scope.

(** * Names of letters are texts *)
Fixpoint ascii_only (s : string) : bool := match s with EmptyString => true | String a r => (N_of_ascii a <? 128) && ascii_only r end.
Lemma ascii_text s : ascii_only s = true -> is_text s.
Proof.
  induction s as [|a r IH]; intros H; [exists []; split; [constructor|reflexivity]|].
  cbn in H. apply andb_true_iff in H as [Ha Hr]. apply N.ltb_lt in Ha.
  destruct (IH Hr) as (us & Hus & ->). exists (N_of_ascii a :: us)%list. split.
  - constructor; [left; lia|exact Hus].
  - cbn [fold_right]. unfold utf8. replace (N_of_ascii a <? 128) with true by (symmetry; apply N.ltb_lt; exact Ha).
    rewrite ascii_N_embedding. reflexivity.
Qed.

(** * Values *)
Section Show.
Variable show : float -> num.

Lemma carried_value v : carried v -> value_of (fun _ => FInt 0) true v.
Proof.
  induction v as [| | | | |l IH|l IH] using goval_ind'; intros H; inversion H; subst; try (constructor; auto; fail).
  - constructor. intros x Hx. rewrite Forall_forall in IH. auto.
  - constructor; [assumption|]. intros k x Hx. rewrite Forall_forall in IH. apply (IH _ Hx). apply (H2 k x Hx).
Qed.

Lemma exact_back v : carried v -> exact (encode show v) = v.
Proof. intros H. apply decode_encode; [discriminate|]. apply carried_value. exact H. Qed.

Lemma carried_sound v : carried v -> sound (encode show v).
Proof.
  induction v as [| | | | |l IH|l IH] using goval_ind'; intros H; inversion H; subst; cbn; try (constructor; auto; fail).
  - constructor. intros x Hx. apply in_map_iff in Hx as (y & <- & Hy). rewrite Forall_forall in IH. auto.
  - constructor. intros k x Hx. apply in_map_iff in Hx as ((k' & y) & E & Hy). cbn in E. injection E as <- <-.
    rewrite Forall_forall in IH. destruct (H2 _ _ Hy) as [Ht Hc]. split; [exact Ht|]. apply (IH _ Hy). exact Hc.
Qed.

Lemma map_max {A B} (f : B -> N) (g : A -> N) (h : A -> B) l : Forall (fun x => f (h x) = g x) l ->
  fold_right N.max 0 (map f (map h l)) = fold_right N.max 0 (map g l).
Proof. intros H. rewrite map_map. induction H as [|x l E _ IH]; cbn; [reflexivity|]. rewrite E, IH. reflexivity. Qed.

Lemma encode_nesting v : nesting (encode show v) = levels v.
Proof.
  induction v as [| | | | |l IH|l IH] using goval_ind'; try reflexivity; cbn [encode nesting levels]; f_equal.
  - apply map_max. exact IH.
  - apply (map_max (fun p : string * json => nesting (snd p)) (fun p : string * goval => levels (snd p))).
    eapply Forall_impl; [|exact IH]. intros p Hp. exact Hp.
Qed.

Lemma number_printable n : number n -> number_ok n = true.
Proof.
  destruct n as [z|s]; [reflexivity|]. intros H. cbn in H. apply literal_back in H. unfold number_ok.
  destruct s as [|a s]; [reflexivity|]. rewrite H. reflexivity.
Qed.

Lemma sound_printable j : sound j -> numbers_ok j = true.
Proof.
  induction j as [| | | |l IH|l IH] using json_ind'; intros H; inversion H; subst; cbn; try reflexivity.
  - apply number_printable. assumption.
  - apply forallb_forall. intros x Hx. rewrite Forall_forall in IH. auto.
  - apply forallb_forall. intros [k x] Hx. rewrite Forall_forall in IH. apply (IH _ Hx). apply (H1 k x Hx).
Qed.

(** * Structs *)

Lemma find_app_none {A} (p : A -> bool) l1 l2 : List.find p l1 = None -> List.find p (l1 ++ l2)%list = List.find p l2.
Proof. induction l1 as [|x l IH]; cbn; [reflexivity|]. destruct (p x); [discriminate|exact IH]. Qed.

Lemma named k f todo done : field_named k (done ++ (k, f) :: todo)%list = Some k.
Proof.
  unfold field_named.
  assert (E : exists p, List.find (fun p => String.eqb (fst p) k) (done ++ (k, f) :: todo)%list = Some p /\ fst p = k).
  { induction done as [|[k' f'] done IH]; cbn.
    - rewrite String.eqb_refl. eauto.
    - destruct (String.eqb_spec k' k) as [->|]; [eauto|exact IH]. }
  destruct E as (p & -> & ->). reflexivity.
Qed.

Lemma assign_at k z j f todo done : ~ In k (map fst done) -> set_field z j = Some f ->
  assign k j (done ++ (k, z) :: todo)%list = Some (done ++ (k, f) :: todo)%list.
Proof.
  intros Hn Hs. induction done as [|[k' f'] done IH]; cbn.
  - rewrite String.eqb_refl, Hs. reflexivity.
  - cbn in Hn. destruct (String.eqb_spec k' k) as [->|]; [tauto|]. rewrite IH by tauto. reflexivity.
Qed.

(** A member for every field, in order: name, value before, value in the text, after. *)
Definition slot : Type := string * field * json * field.
Definition s_name (q : slot) := fst (fst (fst q)).
Definition s_zero (q : slot) := snd (fst (fst q)).
Definition s_tree (q : slot) := snd (fst q).
Definition s_after (q : slot) := snd q.

Lemma struct_back qs : NoDup (map s_name qs) -> Forall (fun q => set_field (s_zero q) (s_tree q) = Some (s_after q)) qs ->
  decode_struct (map (fun q => (s_name q, s_zero q)) qs) (map (fun q => (s_name q, s_tree q)) qs)
  = Some (map (fun q => (s_name q, s_after q)) qs).
Proof.
  intros Hn Hs.
  assert (G : forall qs done, NoDup (map fst done ++ map s_name qs)%list ->
    Forall (fun q => set_field (s_zero q) (s_tree q) = Some (s_after q)) qs ->
    decode_struct (done ++ map (fun q => (s_name q, s_zero q)) qs)%list (map (fun q => (s_name q, s_tree q)) qs)
    = Some (done ++ map (fun q => (s_name q, s_after q)) qs)%list).
  { clear. induction qs as [|q qs IH]; intros done Hn Hs; cbn [map decode_struct]; [reflexivity|].
    inversion Hs as [|? ? Hq Hqs]; subst. rewrite named.
    rewrite (assign_at _ _ _ (s_after q)); [|intros Hi|exact Hq].
    - change ((s_name q, s_after q) :: map (fun q => (s_name q, s_zero q)) qs)%list
        with ([(s_name q, s_after q)] ++ map (fun q => (s_name q, s_zero q)) qs)%list.
      rewrite app_assoc, IH; [rewrite <- app_assoc; reflexivity| |exact Hqs].
      rewrite map_app, <- app_assoc. cbn. exact Hn.
    - cbn [map] in Hn. apply NoDup_remove_2 in Hn. apply Hn. apply in_or_app. left. exact Hi. }
  exact (G qs [] Hn Hs).
Qed.

Lemma field_back z f : of_type z f -> set_field z (field_tree show f) = Some f.
Proof.
  unfold of_type. destruct z, f; try contradiction; intros H; try reflexivity; unfold field_tree, set_field.
  - replace ((- 2 ^ 63 <=? z0)%Z && (z0 <? 2 ^ 63)%Z) with true; [reflexivity|].
    symmetry. apply andb_true_iff. rewrite Z.leb_le, Z.ltb_lt. exact H.
  - replace ((0 <=? Z.of_N n0)%Z && (Z.of_N n0 <? 2 ^ 64)%Z) with true; [rewrite N2Z.id; reflexivity|].
    symmetry. apply andb_true_iff. rewrite Z.leb_le, Z.ltb_lt. change (2 ^ 64)%Z with (Z.of_N (2 ^ 64)). lia.
  - rewrite exact_back by apply H. reflexivity.
Qed.

Lemma limit : max_nesting = 10000.
Proof. reflexivity. Qed.

Lemma field_sound z f : of_type z f -> sound (field_tree show f) /\ nesting (field_tree show f) + 2 <= max_nesting.
Proof.
  unfold of_type. destruct z, f; try contradiction; intros H; cbn [field_tree nesting];
    try (split; [constructor; auto; exact Logic.I|vm_compute; discriminate]).
  - rewrite encode_nesting. split; [apply carried_sound|]; apply H.
Qed.

Section Types.
Variable types : string -> option (list (string * field)).

Lemma payload_back etype d : data_of_type types etype d ->
  decode_data types etype (Some (payload_tree show d)) = Some d /\ payload_tree show d <> JNull
  /\ sound (payload_tree show d) /\ nesting (payload_tree show d) + 1 <= max_nesting.
Proof.
  unfold data_of_type, decode_data. destruct (types etype) as [zero|]; destruct d as [v|l]; try contradiction.
  - intros [Hn H2]. cbn [payload_tree].
    set (qs := map (fun p : (string * field) * (string * field) => (fst (fst p), snd (fst p), field_tree show (snd (snd p)), snd (snd p))) (combine zero l)).
    assert (E1 : map (fun q => (s_name q, s_zero q)) qs = zero).
    { unfold qs. clear Hn. rewrite map_map. induction H2 as [|[k z] [k' f] zs fs (Hk & _) _ IH]; [reflexivity|]. exact (f_equal (cons (k, z)) IH). }
    assert (E2 : map (fun q => (s_name q, s_tree q)) qs = map (fun p => (fst p, field_tree show (snd p))) l).
    { unfold qs. clear Hn E1. rewrite map_map. induction H2 as [|[k z] [k' f] zs fs (Hk & _) _ IH]; [reflexivity|]. cbn in Hk. subst k'. exact (f_equal (cons (k, field_tree show f)) IH). }
    assert (E3 : map (fun q => (s_name q, s_after q)) qs = l).
    { unfold qs. clear Hn E1 E2. rewrite map_map. induction H2 as [|[k z] [k' f] zs fs (Hk & _) _ IH]; [reflexivity|]. cbn in Hk. subst k'. exact (f_equal (cons (k, f)) IH). }
    assert (E4 : map s_name qs = map fst zero).
    { rewrite <- E1, map_map. reflexivity. }
    rewrite <- E2. rewrite <- E1 at 1. rewrite struct_back; [rewrite E3|rewrite E4; exact Hn|].
    2:{ unfold qs. clear - H2. induction H2 as [|[k z] [k' f] zs fs (_ & _ & Ho) _ IH]; cbn; constructor; [|exact IH].
        cbn. apply field_back. exact Ho. }
    split; [reflexivity|]. split; [discriminate|]. rewrite E2.
    assert (F : forall k f, In (k, f) l -> exists z, of_type z f /\ is_text k).
    { clear - H2. induction H2 as [|[k z] [k' f] zs fs (Hk & Ht & Ho) _ IH]; intros k0 f0; [contradiction|].
      intros [E|Hi]; [injection E as <- <-; exists z; split; assumption|auto]. }
    split.
    + constructor. intros k x Hx. apply in_map_iff in Hx as ((k' & f) & E & Hy). cbn in E. injection E as <- <-.
      destruct (F _ _ Hy) as (z & Ho & Ht). split; [exact Ht|]. apply (field_sound z f Ho).
    + cbn [nesting].
      assert (B : fold_right N.max 0 (map (fun p => nesting (snd p)) (map (fun p => (fst p, field_tree show (snd p))) l)) + 2 <= max_nesting).
      { assert (F' : forall f, In f (map snd l) -> nesting (field_tree show f) + 2 <= max_nesting).
        { intros f Hf. apply in_map_iff in Hf as ((k & f') & E & Hy). cbn in E. subst f'.
          destruct (F _ _ Hy) as (z & Ho & _). apply (field_sound z f Ho). }
        clear - F'. induction l as [|[k f] l IH]; cbn; [vm_compute; discriminate|].
        pose proof (F' f (or_introl eq_refl)) as A. specialize (IH (fun g Hg => F' g (or_intror Hg))). cbn in *. lia. }
      lia.
  - intros (Hv & Hc & Hl). cbn [payload_tree]. rewrite exact_back by exact Hc. split; [reflexivity|].
    split; [destruct v; cbn; congruence|]. rewrite encode_nesting. split; [apply carried_sound; exact Hc|exact Hl].
Qed.

Definition record_slots (e : entry) : list slot :=
  [("streamName", TText "", JStr (e_stream e), TText (e_stream e));
   ("aggregateType", TText "", JStr (e_atype e), TText (e_atype e));
   ("aggregateID", TText "", JStr (e_aid e), TText (e_aid e));
   ("globalSequenceNumber", TUint 0, JNum (Int (Z.of_N (e_gsn e))), TUint (e_gsn e));
   ("streamSequenceNumber", TUint 0, JNum (Int (Z.of_N (e_ssn e))), TUint (e_ssn e));
   ("insertTimestamp", TUint 0, JNum (Int (Z.of_N (e_ts e))), TUint (e_ts e));
   ("eventID", TText "", JStr (e_eid e), TText (e_eid e));
   ("eventType", TText "", JStr (e_etype e), TText (e_etype e));
   ("data", TRaw None true, payload_tree show (e_data e), TRaw (Some (payload_tree show (e_data e))) true);
   ("metadata", TAny GNil, encode show (e_meta e), TAny (e_meta e))].

Lemma set_uint n : n < 2 ^ 64 -> set_field (TUint 0) (JNum (Int (Z.of_N n))) = Some (TUint n).
Proof. intros H. apply (field_back (TUint 0) (TUint n)). exact H. Qed.

Lemma unmarshal_back e : ordinary types e -> unmarshal types (record_tree show e) = Some e.
Proof.
  intros (H1 & H2 & H3 & H4 & H5 & G & S & T & Cm & Lm & D).
  destruct (payload_back _ _ D) as (Db & Dn & Ds & Dl).
  unfold unmarshal, record_tree. cbv iota.
  pose proof (struct_back (record_slots e)) as B.
  assert (N1 : NoDup (map s_name (record_slots e))).
  { cbn. repeat constructor; cbn; intuition discriminate. }
  assert (N2 : Forall (fun q => set_field (s_zero q) (s_tree q) = Some (s_after q)) (record_slots e)).
  { unfold record_slots. repeat apply Forall_cons; cbn [s_zero s_tree s_after fst snd]; try reflexivity;
      try (apply set_uint; assumption); [| |apply Forall_nil].
    - destruct (payload_tree show (e_data e)); try reflexivity. congruence.
    - unfold set_field. rewrite exact_back by exact Cm. reflexivity. }
  specialize (B N1 N2). unfold record_slots in B. cbn [map s_name s_zero s_tree s_after fst snd] in B.
  unfold empty_record. rewrite B. rewrite Db. destruct e; reflexivity.
Qed.

Lemma sound_obj' l : Forall (fun p => is_text (fst p) /\ sound (snd p)) l -> sound (JObj l).
Proof. intros H. constructor. intros k x Hx. rewrite Forall_forall in H. apply (H (k, x) Hx). Qed.

Lemma record_sound e : ordinary types e -> sound (record_tree show e) /\ nesting (record_tree show e) <= max_nesting.
Proof.
  intros (H1 & H2 & H3 & H4 & H5 & G & S & T & Cm & Lm & D).
  destruct (payload_back _ _ D) as (_ & _ & Ds & Dl). split.
  - apply sound_obj'. repeat apply Forall_cons; cbn [fst snd]; try apply Forall_nil;
      (split; [apply ascii_text; reflexivity|]); try (constructor; assumption || exact Logic.I); auto.
    apply carried_sound. exact Cm.
  - cbn [record_tree nesting map fold_right snd]. rewrite encode_nesting. pose proof limit. lia.
Qed.

Lemma marshal_ok e : ordinary types e -> marshal show e = Some (print (record_tree show e)).
Proof. intros H. unfold marshal. rewrite sound_printable by apply (record_sound e H). reflexivity. Qed.

(** * Streams *)
Definition text_of (e : entry) : string := print (record_tree show e).

Lemma read_entry e t : ordinary types e -> read_value (text_of e ++ t) = Some (record_tree show e, t).
Proof. intros H. destruct (record_sound e H). apply read_back; [assumption..|discriminate]. Qed.

Lemma text_head e : exists r, text_of e = String "{" r.
Proof. eexists. reflexivity. Qed.

Fixpoint jtail (es : list entry) : string := match es with [] => "]" | e :: r => "," ++ text_of e ++ jtail r end.
Fixpoint ntail (es : list entry) : string := match es with [] => "" | e :: r => newline ++ text_of e ++ ntail r end.
Definition jdoc (es : list entry) : string := match es with [] => "]" | e :: r => text_of e ++ jtail r end.
Definition ndoc (es : list entry) : string := match es with [] => "" | e :: r => text_of e ++ ntail r end.

Lemma json_loop_ok es : Forall (ordinary types) es -> forall n, 0 < n -> json_loop show n (map Rec es) = (jtail es, None).
Proof.
  induction es as [|e es IH]; intros Ho n Hn; [reflexivity|]. inversion Ho; subst. cbn [map json_loop].
  rewrite marshal_ok by assumption. rewrite IH by (assumption || lia).
  replace (0 <? n) with true by (symmetry; apply N.ltb_lt; exact Hn). reflexivity.
Qed.
Lemma json_write_ok es : Forall (ordinary types) es -> json_write show (map Rec es) = ("[" ++ jdoc es, None).
Proof.
  intros Ho. unfold json_write. destruct es as [|e es]; [reflexivity|]. inversion Ho; subst. cbn [map json_loop].
  rewrite marshal_ok by assumption. rewrite json_loop_ok by (assumption || lia). reflexivity.
Qed.
Lemma ndjson_loop_ok es : Forall (ordinary types) es -> forall n, 0 < n -> ndjson_loop show n (map Rec es) = (ntail es, None).
Proof.
  induction es as [|e es IH]; intros Ho n Hn; [reflexivity|]. inversion Ho; subst. cbn [map ndjson_loop].
  rewrite marshal_ok by assumption. rewrite IH by (assumption || lia).
  replace (0 <? n) with true by (symmetry; apply N.ltb_lt; exact Hn). reflexivity.
Qed.
Lemma ndjson_write_ok es : Forall (ordinary types) es -> ndjson_write show (map Rec es) = (ndoc es, None).
Proof.
  intros Ho. unfold ndjson_write. destruct es as [|e es]; [reflexivity|]. inversion Ho; subst. cbn [map ndjson_loop].
  rewrite marshal_ok by assumption. rewrite ndjson_loop_ok by (assumption || lia). reflexivity.
Qed.

Definition run (sep : string) (es : list entry) : string := fold_right (fun e s => sep ++ text_of e ++ s) "" es.

Lemma entry_cut e p q f : ordinary types e -> text_of e = p ++ q -> q <> "" -> value f max_nesting p = None.
Proof. intros H E Hq. destruct (record_sound e H). apply (value_cut (record_tree show e) p q); auto. Qed.

Lemma cut_app p a b : cut_of p (a ++ b) -> (exists q, q <> "" /\ a = p ++ q) \/ (exists p', p = a ++ p' /\ cut_of p' b).
Proof.
  intros (q & E). revert p E. induction a as [|x a IH]; intros p E.
  - right. exists p. split; [reflexivity|]. exists q. exact E.
  - destruct p as [|y p]; [left; exists (String x a); split; [discriminate|reflexivity]|].
    cbn in E. injection E as <- E. destruct (IH p E) as [(q' & Hq & ->)|(p' & -> & Hp)].
    + left. exists q'. auto.
    + right. exists p'. auto.
Qed.

(** The separators: a comma inside an array, a newline between lines. *)
Definition sep_of (array : bool) : string := if array then "," else newline.

Lemma skip_newline s : skip (newline ++ s) = skip s.
Proof. reflexivity. Qed.

Lemma step_record array e x f : ordinary types e ->
  records_from types (S f) array true (sep_of array ++ text_of e ++ x) = (Rec e :: records_from types f array true x)%list.
Proof.
  intros H. cbn [records_from].
  replace (skip (sep_of array ++ text_of e ++ x)) with (if array then "," ++ text_of e ++ x else text_of e ++ x)
    by (destruct array; reflexivity).
  destruct array; cbn [sep_of].
  - cbn [append]. cbv iota. change (Ascii.eqb "," "]" || Ascii.eqb "," "}") with false. cbv iota. cbn [andb].
    rewrite Ascii.eqb_refl, read_entry, unmarshal_back by exact H. reflexivity.
  - destruct (text_head e) as (r & E). rewrite E at 1. cbn [append].
    change (Ascii.eqb "{" "]" || Ascii.eqb "{" "}") with false. cbv iota. cbn [andb].
    unfold read_value. rewrite (value_blank _ _ _ (text_of e ++ x)) by apply skip_newline.
    unfold text_of at 2. rewrite value_back; [rewrite unmarshal_back by exact H; reflexivity|apply (record_sound e H)|apply (record_sound e H)| |discriminate].
    cbn [append newline String.length]. rewrite app_length_s. unfold text_of. lia.
Qed.

Lemma first_record array e x f : ordinary types e ->
  records_from types (S f) array false (text_of e ++ x) = (Rec e :: records_from types f array true x)%list.
Proof.
  intros H. cbn [records_from]. destruct (text_head e) as (r & E). rewrite E at 1. cbn [append skip].
  change (blank "{") with false. cbv iota.
  change (Ascii.eqb "{" "]" || Ascii.eqb "{" "}") with false. cbv iota.
  rewrite andb_false_r, read_entry, unmarshal_back by exact H. reflexivity.
Qed.

Lemma cut_record array e p q f : ordinary types e -> text_of e = p ++ q -> q <> "" -> p <> "" ->
  records_from types (S f) array false p = [Bad EDeserialize]
  /\ records_from types (S f) array true (sep_of array ++ p) = [Bad EDeserialize].
Proof.
  intros H E Hq Hp. destruct p as [|c p]; [congruence|].
  assert (c = "{"%char). { destruct (text_head e) as (r & E'). rewrite E' in E. injection E as -> _. reflexivity. } subst c.
  split.
  - cbn [records_from skip]. change (blank "{") with false. cbv iota.
    change (Ascii.eqb "{" "]" || Ascii.eqb "{" "}") with false. cbv iota. rewrite andb_false_r.
    unfold read_value. rewrite (entry_cut e _ q) by assumption. reflexivity.
  - destruct array; cbn [sep_of].
    + cbn [records_from append skip]. change (blank ",") with false. cbv iota.
      change (Ascii.eqb "," "]" || Ascii.eqb "," "}") with false. cbv iota. cbn [andb]. rewrite Ascii.eqb_refl.
      unfold read_value. rewrite (entry_cut e _ q) by assumption. reflexivity.
    + cbn [records_from append newline skip]. change (blank "010") with true. change (blank "{") with false. cbv iota.
      change (Ascii.eqb "{" "]" || Ascii.eqb "{" "}") with false. cbv iota. cbn [andb].
      unfold read_value. rewrite (value_blank _ _ _ (String "{" p)) by reflexivity.
      rewrite (entry_cut e _ q) by assumption. reflexivity.
Qed.

Lemma run_over array es : Forall (ordinary types) es -> forall x f, (String.length (run (sep_of array) es ++ x) < f)%nat ->
  exists f', (String.length x < f')%nat
  /\ records_from types f array true (run (sep_of array) es ++ x) = (map Rec es ++ records_from types f' array true x)%list.
Proof.
  intros Ho. induction Ho as [|e es He Hes IH]; intros x f Hf; [exists f; auto|].
  cbn [run fold_right] in *. fold (run (sep_of array) es) in *. rewrite !app_assoc_s in *.
  destruct f as [|f]; [lia|]. rewrite step_record by exact He.
  destruct (IH x f) as (f' & Hf' & E). { rewrite !app_length_s in Hf. rewrite !app_length_s in *. destruct (text_head e) as (r & Er). rewrite Er in Hf. cbn [String.length] in Hf. lia. }
  exists f'. split; [exact Hf'|]. rewrite E. reflexivity.
Qed.

Lemma cut_run array close es : (close = "]" \/ close = "" /\ array = false) -> Forall (ordinary types) es ->
  forall p f, cut_of p (run (sep_of array) es ++ close) -> (String.length p < f)%nat ->
  part_of es (records_from types f array true p).
Proof.
  intros Hc Ho. induction Ho as [|e es He Hes IH]; intros p f Hp Hf.
  - destruct f as [|f]; [lia|]. exists O. left. destruct Hp as (q & E). cbn [run fold_right append] in E.
    destruct p as [|c p]; [reflexivity|]. destruct Hc as [->|[-> _]]; cbn in E; [|discriminate]. injection E as <- _. reflexivity.
  - cbn [run fold_right] in Hp. fold (run (sep_of array) es) in Hp. rewrite !app_assoc_s in Hp.
    destruct f as [|f]; [lia|].
    destruct p as [|c p]; [exists O; left; reflexivity|].
    assert (S1 : exists p1, String c p = sep_of array ++ p1 /\ cut_of p1 (text_of e ++ run (sep_of array) es ++ close)).
    { destruct Hp as (q & E). unfold sep_of, newline in *. destruct array; cbn in E; injection E as <- E; exists p; (split; [reflexivity|exists q; exact E]). }
    destruct S1 as (p1 & E1 & Hp1). rewrite E1 in *. clear E1 Hp.
    apply cut_app in Hp1 as [(q & Hq & E)|(p2 & -> & Hp2)].
    + exists O. destruct p1 as [|c1 p1].
      * destruct array; [right|left]; reflexivity.
      * right. apply (cut_record array e _ q f He E Hq). discriminate.
    + rewrite step_record by exact He. rewrite !app_length_s in Hf.
      destruct (IH p2 f Hp2) as (k & [E|E]). { destruct array; cbn [sep_of newline String.length] in Hf; lia. }
      * exists (S k). left. rewrite E. reflexivity.
      * exists (S k). right. rewrite E. reflexivity.
Qed.

Lemma cut_doc array close es : (close = "]" \/ close = "" /\ array = false) -> Forall (ordinary types) es ->
  forall p f, cut_of p (match es with [] => close | e :: r => text_of e ++ run (sep_of array) r ++ close end) -> (String.length p < f)%nat ->
  part_of es (records_from types f array false p).
Proof.
  intros Hc Ho p f Hp Hf. destruct f as [|f]; [lia|]. destruct es as [|e es].
  - exists O. left. destruct Hp as (q & E).
    destruct p as [|c p]; [reflexivity|]. destruct Hc as [->|[-> _]]; cbn in E; [|discriminate]. injection E as <- _. reflexivity.
  - inversion Ho as [|? ? He Hes]; subst. apply cut_app in Hp as [(q & Hq & E)|(p2 & -> & Hp2)].
    + exists O. destruct p as [|c1 p1]; [left; reflexivity|]. right. apply (cut_record array e _ q f He E Hq). discriminate.
    + rewrite first_record by exact He. rewrite app_length_s in Hf. destruct (text_head e) as (r & Er). rewrite Er in Hf. cbn [String.length] in Hf.
      destruct (cut_run array close es Hc Hes p2 f Hp2 ltac:(lia)) as (k & [E|E]).
      * exists (S k). left. rewrite E. reflexivity.
      * exists (S k). right. rewrite E. reflexivity.
Qed.

Lemma jtail_run es : jtail es = run "," es ++ "]".
Proof. induction es as [|e es IH]; [reflexivity|]. cbn [jtail run fold_right]. fold (run "," es). rewrite IH, !app_assoc_s. reflexivity. Qed.
Lemma ntail_run es : ntail es = run newline es ++ "".
Proof. induction es as [|e es IH]; [reflexivity|]. cbn [ntail run fold_right]. fold (run newline es). rewrite IH, !app_assoc_s. reflexivity. Qed.

Lemma json_whole es : Forall (ordinary types) es -> json_read types ("[" ++ jdoc es) = map Rec es.
Proof.
  intros Ho. unfold json_read. cbn [append skip]. change (blank "[") with false. cbv iota. rewrite Ascii.eqb_refl.
  destruct es as [|e es]; [reflexivity|]. inversion Ho as [|? ? He Hes]; subst. cbn [jdoc].
  rewrite first_record by exact He. rewrite jtail_run.
  destruct (run_over true es Hes "]" (String.length (text_of e ++ run "," es ++ "]"))) as (f' & Hf & E).
  { destruct (text_head e) as (r & Er). rewrite Er. cbn [sep_of append String.length]. rewrite !app_length_s. cbn [String.length]. lia. }
  cbn [sep_of] in E. rewrite E. destruct f' as [|f']; [lia|]. cbn. rewrite app_nil_r. reflexivity.
Qed.

Lemma ndjson_whole es : Forall (ordinary types) es -> ndjson_read types (ndoc es) = map Rec es.
Proof.
  intros Ho. unfold ndjson_read.
  destruct es as [|e es]; [reflexivity|]. inversion Ho as [|? ? He Hes]; subst. cbn [ndoc].
  rewrite first_record by exact He. rewrite ntail_run.
  destruct (run_over false es Hes "" (String.length (text_of e ++ run newline es ++ ""))) as (f' & Hf & E).
  { destruct (text_head e) as (r & Er). rewrite Er. cbn [sep_of append String.length]. rewrite !app_length_s. cbn [String.length]. lia. }
  cbn [sep_of] in E. rewrite E. destruct f' as [|f']; [lia|]. cbn. rewrite app_nil_r. reflexivity.
Qed.

Lemma json_cut es p : Forall (ordinary types) es -> cut_of p ("[" ++ jdoc es) -> part_of es (json_read types p).
Proof.
  intros Ho (q & E). destruct p as [|c p]; [exists O; left; reflexivity|]. cbn in E. injection E as <- E.
  unfold json_read. cbn [skip]. change (blank "[") with false. cbv iota. rewrite Ascii.eqb_refl.
  apply (cut_doc true "]" es); [left; reflexivity|exact Ho| |lia].
  exists q. destruct es; cbn [jdoc sep_of] in *; [exact E|]. rewrite <- jtail_run. exact E.
Qed.

Lemma ndjson_cut es p : Forall (ordinary types) es -> cut_of p (ndoc es) -> part_of es (ndjson_read types p).
Proof.
  intros Ho (q & E). unfold ndjson_read.
  apply (cut_doc false "" es); [right; split; reflexivity|exact Ho| |lia].
  exists q. destruct es; cbn [ndoc sep_of] in *; [exact E|]. rewrite <- ntail_run. exact E.
Qed.

Lemma no_data e : ordinary types e ->
  let e' := mk_entry (e_stream e) (e_atype e) (e_aid e) (e_gsn e) (e_ssn e) (e_ts e) (e_eid e) (e_etype e) (Value GNil) (e_meta e) in
  exists text, json_write show [Rec e'] = (text, None) /\ json_read types text = [Bad EDeserialize]
  /\ ndjson_write show [Rec e'] = (print (record_tree show e'), None)
  /\ ndjson_read types (print (record_tree show e')) = [Bad EDeserialize].
Proof.
  intros H e'. assert (Hs : sound (record_tree show e') /\ nesting (record_tree show e') <= max_nesting).
  { destruct H as (H1 & H2 & H3 & H4 & H5 & G & S & T & Cm & Lm & D). split.
    - apply sound_obj'. repeat apply Forall_cons; cbn [fst snd]; try apply Forall_nil;
        (split; [apply ascii_text; reflexivity|]); try (constructor; assumption || exact Logic.I); auto.
      apply carried_sound. exact Cm.
    - cbn [record_tree nesting map fold_right snd e_meta e' payload_tree e_data encode]. rewrite encode_nesting. (pose proof limit; lia). }
  assert (Hm : marshal show e' = Some (text_of e')) by (unfold marshal; rewrite sound_printable by apply Hs; reflexivity).
  assert (Hu : unmarshal types (record_tree show e') = None).
  { destruct H as (H1 & H2 & H3 & H4 & H5 & G & S & T & Cm & Lm & D).
    unfold unmarshal, record_tree. cbv iota.
    set (qs := [("streamName", TText "", JStr (e_stream e), TText (e_stream e));
       ("aggregateType", TText "", JStr (e_atype e), TText (e_atype e));
       ("aggregateID", TText "", JStr (e_aid e), TText (e_aid e));
       ("globalSequenceNumber", TUint 0, JNum (Int (Z.of_N (e_gsn e))), TUint (e_gsn e));
       ("streamSequenceNumber", TUint 0, JNum (Int (Z.of_N (e_ssn e))), TUint (e_ssn e));
       ("insertTimestamp", TUint 0, JNum (Int (Z.of_N (e_ts e))), TUint (e_ts e));
       ("eventID", TText "", JStr (e_eid e), TText (e_eid e));
       ("eventType", TText "", JStr (e_etype e), TText (e_etype e));
       ("data", TRaw None true, JNull, TRaw None false);
       ("metadata", TAny GNil, encode show (e_meta e), TAny (e_meta e))] : list slot).
    pose proof (struct_back qs) as B.
    assert (N1 : NoDup (map s_name qs)) by (cbn; repeat constructor; cbn; intuition discriminate).
    assert (N2 : Forall (fun q => set_field (s_zero q) (s_tree q) = Some (s_after q)) qs).
    { unfold qs. repeat apply Forall_cons; cbn [s_zero s_tree s_after fst snd]; try reflexivity;
        try (apply set_uint; assumption); [|apply Forall_nil].
      unfold set_field. rewrite exact_back by exact Cm. reflexivity. }
    specialize (B N1 N2). unfold qs in B. cbn [map s_name s_zero s_tree s_after fst snd] in B.
    unfold empty_record. unfold e'. cbn [e_stream e_atype e_aid e_gsn e_ssn e_ts e_eid e_etype e_data e_meta payload_tree encode].
    rewrite B. reflexivity. }
  assert (Hr : forall array f x, records_from types (S f) array false (text_of e' ++ x) = [Bad EDeserialize]).
  { intros array f x. cbn [records_from]. destruct (text_head e') as (r & E). rewrite E at 1. cbn [append skip].
    change (blank "{") with false. cbv iota.
    change (Ascii.eqb "{" "]" || Ascii.eqb "{" "}") with false. cbv iota.
    rewrite andb_false_r. unfold text_of. rewrite read_back by (apply Hs || discriminate). rewrite Hu. reflexivity. }
  exists ("[" ++ text_of e' ++ "]"). unfold json_write, ndjson_write. cbn [json_loop ndjson_loop]. rewrite Hm.
  split; [reflexivity|]. split.
  - unfold json_read. cbn [append skip]. change (blank "[") with false. cbv iota. rewrite Ascii.eqb_refl. apply Hr.
  - cbn [append]. rewrite app_nil_s. split; [reflexivity|]. unfold ndjson_read.
    pose proof (Hr false (String.length (print (record_tree show e'))) "") as X. rewrite app_nil_s in X. exact X.
Qed.

Lemma json_error_end es x rest : json_write show (map Rec es ++ Bad x :: rest)%list = json_write show (map Rec es).
Proof.
  assert (G : forall n, json_loop show n (map Rec es ++ Bad x :: rest)%list = json_loop show n (map Rec es)).
  { induction es as [|e l IH]; intros n; [reflexivity|]. cbn [map app json_loop]. destruct (marshal show e); [|reflexivity]. rewrite IH. reflexivity. }
  unfold json_write. rewrite G. reflexivity.
Qed.
Lemma ndjson_error_end es x rest : ndjson_write show (map Rec es ++ Bad x :: rest)%list = ndjson_write show (map Rec es).
Proof.
  unfold ndjson_write. generalize 0.
  induction es as [|e l IH]; intros n; [reflexivity|]. cbn [map app ndjson_loop]. destruct (marshal show e); [|reflexivity]. rewrite IH. reflexivity.
Qed.

Lemma pre_json es : Forall (ordinary types) es -> forall e rest, marshal show e = None -> forall n, 0 < n ->
  json_loop show n (map Rec es ++ Rec e :: rest)%list = (run "," es, Some ESerialize).
Proof.
  intros Ho e rest He. induction Ho as [|d l Hd _ IH]; intros n Hn; cbn [map app json_loop].
  - rewrite He. reflexivity.
  - rewrite (marshal_ok d Hd). rewrite IH by lia. replace (0 <? n) with true by (symmetry; apply N.ltb_lt; exact Hn). reflexivity.
Qed.
Lemma pre_ndjson es : Forall (ordinary types) es -> forall e rest, marshal show e = None -> forall n, 0 < n ->
  ndjson_loop show n (map Rec es ++ Rec e :: rest)%list = (run newline es ++ newline, Some ESerialize).
Proof.
  intros Ho e rest He. induction Ho as [|d l Hd _ IH]; intros n Hn; cbn [map app ndjson_loop];
    (replace (0 <? n) with true by (symmetry; apply N.ltb_lt; exact Hn)).
  - rewrite He. reflexivity.
  - rewrite (marshal_ok d Hd). rewrite IH by lia. cbn [run fold_right]. fold (run newline l). rewrite !app_assoc_s. reflexivity.
Qed.

(** Reading complete records behind an opening bracket, or behind nothing. *)
Lemma open_json es : Forall (ordinary types) es -> forall d, Forall (ordinary types) [d] ->
  json_read types ("[" ++ text_of d ++ run "," es) = map Rec (d :: es).
Proof.
  intros Ho d Hd. inversion Hd; subst. unfold json_read. cbn [append skip]. change (blank "[") with false. cbv iota. rewrite Ascii.eqb_refl.
  rewrite first_record by assumption.
  destruct (run_over true es Ho "" (String.length (text_of d ++ run "," es))) as (f' & Hf & E).
  { destruct (text_head d) as (r & Er). rewrite Er. cbn [sep_of append String.length]. rewrite !app_length_s. cbn [String.length]. lia. }
  cbn [sep_of] in E. rewrite app_nil_s in E. rewrite E. destruct f' as [|f']; [lia|]. cbn. rewrite app_nil_r. reflexivity.
Qed.

Lemma unwritable es e rest : Forall (ordinary types) es -> marshal show e = None ->
  exists text text',
    json_write show (map Rec es ++ Rec e :: rest)%list = (text, Some ESerialize) /\ json_read types text = map Rec es
    /\ ndjson_write show (map Rec es ++ Rec e :: rest)%list = (text', Some ESerialize) /\ ndjson_read types text' = map Rec es.
Proof.
  intros Ho He. unfold json_write, ndjson_write. destruct Ho as [|d l Hd Hl]; cbn [map app json_loop ndjson_loop].
  - rewrite He. exists "[", "". repeat split.
  - rewrite (marshal_ok d Hd). rewrite (pre_json l Hl e rest He), (pre_ndjson l Hl e rest He) by lia.
    exists ("[" ++ text_of d ++ run "," l), (text_of d ++ run newline l ++ newline).
    split; [reflexivity|]. split; [apply open_json; [exact Hl|constructor; [exact Hd|constructor]]|].
    split; [reflexivity|]. unfold ndjson_read. rewrite first_record by exact Hd.
    destruct (run_over false l Hl newline (String.length (text_of d ++ run newline l ++ newline))) as (f' & Hf & E).
    { destruct (text_head d) as (r & Er). rewrite Er. cbn [sep_of append String.length]. rewrite !app_length_s. cbn [String.length]. lia. }
    cbn [sep_of] in E. rewrite E. destruct f' as [|f']; [lia|]. cbn. rewrite app_nil_r. reflexivity.
Qed.

Lemma firstn_ordinary k es : Forall (ordinary types) es -> Forall (ordinary types) (firstn k es).
Proof. intros H. rewrite Forall_forall in *. intros x Hx. apply H. rewrite <- (firstn_skipn k es). apply in_or_app. left. exact Hx. Qed.

Lemma run_app sep a b : run sep (a ++ b)%list = run sep a ++ run sep b.
Proof. induction a as [|x a IH]; [reflexivity|]. cbn [app run fold_right]. fold (run sep (a ++ b)%list). fold (run sep a). rewrite IH, !app_assoc_s. reflexivity. Qed.

Lemma unnoticed es k : Forall (ordinary types) es ->
  exists p q, fst (json_write show (map Rec es)) = (p ++ q)%string /\ q <> "" /\ json_read types p = map Rec (firstn k es).
Proof.
  intros Ho. rewrite (json_write_ok es Ho). cbn [fst]. destruct es as [|d l].
  - exists "[", "]". repeat split; [discriminate|]. destruct k; reflexivity.
  - destruct k as [|k].
    + exists "[", (jdoc (d :: l)). split; [reflexivity|]. split; [destruct (text_head d) as (r & E); cbn [jdoc]; rewrite E; discriminate|reflexivity].
    + inversion Ho as [|? ? Hd Hl]; subst. exists ("[" ++ text_of d ++ run "," (firstn k l)), (run "," (skipn k l) ++ "]").
      split; [|split].
      * cbn [jdoc]. rewrite jtail_run. rewrite <- (firstn_skipn k l) at 1. rewrite run_app. cbn [append]. rewrite !app_assoc_s. reflexivity.
      * destruct (skipn k l); discriminate.
      * cbn [firstn]. apply open_json; [apply firstn_ordinary; exact Hl|constructor; [exact Hd|constructor]].
Qed.
End Types.
End Show.
