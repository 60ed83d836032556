(** C106: streams of MessagePack records are MessagePack (MsgpackGrammar.v), and the format
    leaves a reader no choice: any reader of the format finds these records in them. *)
From Coq Require Import ZArith Permutation.
From Verif Require Import Base Text Json JsonSpec Msgpack MsgpackSpec MsgpackProofs MsgpackGrammar MsgpackGrammarProofs Properties_Msgpack.
Open Scope string_scope.
Open Scope N_scope.

(** The format itself: bytes are the objects of one list of values at most, and bytes that
    go on have the objects of their beginning first. *)
Theorem C106_one_reading : forall os os' t, sequence os t -> sequence os' t -> os = os'.
Proof. intros os os' t H H'. exact (stream_unique os t H os' H'). Qed.
Print Assumptions C106_one_reading.

Theorem C106_beginning : forall os os' t r, sequence os (t ++ r) -> sequence os' t -> exists rest, os = (os' ++ rest)%list /\ sequence rest r.
Proof. intros os os' t r H H'. exact (stream_prefix os (t ++ r) H os' t r H' eq_refl). Qed.
Print Assumptions C106_beginning.

(** The writer, for whatever order Go gives the members of a map. *)
Theorem C106_wellformed_partial : forall order es, any_order order -> Forall expressible_record es ->
  exists os, sequence os (fst (msgpack_write order (map MRec es))) /\ records_are es os.
Proof. intros order es A H. destruct (stream_spells order A es H) as (os & R & S). eauto. Qed.
Print Assumptions C106_wellformed_partial.

(** Whoever reads the bytes as MessagePack finds two objects for each record, with the
    fields and the data of that record, and nothing else. *)
Theorem C106_any_reader_partial : forall order es os, any_order order -> Forall expressible_record es ->
  sequence os (fst (msgpack_write order (map MRec es))) -> records_are es os.
Proof.
  intros order es os A H S. destruct (stream_spells order A es H) as (os' & R & S'). now rewrite (stream_unique _ _ S _ S').
Qed.
Print Assumptions C106_any_reader_partial.

(** A stream cut off anywhere: the objects before the cut are the first of those of the
    records. *)
Theorem C106_cut_off_partial : forall order es os t r, any_order order -> Forall expressible_record es ->
  fst (msgpack_write order (map MRec es)) = t ++ r -> sequence os t ->
  exists rest, records_are es (os ++ rest).
Proof.
  intros order es os t r A H E S. destruct (stream_spells order A es H) as (os' & R & S').
  destruct (stream_prefix _ _ S' _ _ _ S E) as (rest & -> & _). eauto.
Qed.
Print Assumptions C106_cut_off_partial.

(** Equal bytes come from records with equal fields. *)
Definition fields (e : mentry) := (m_stream e, m_atype e, m_aid e, m_gsn e, m_ssn e, m_ts e, m_eid e, m_etype e).
Theorem C106_equal_bytes_partial : forall order order' es es', any_order order -> any_order order' ->
  Forall expressible_record es -> Forall expressible_record es' ->
  fst (msgpack_write order (map MRec es)) = fst (msgpack_write order' (map MRec es')) -> map fields es = map fields es'.
Proof.
  intros order order' es es' A A' H H' E. destruct (stream_spells order A es H) as (os & R & S). destruct (stream_spells order' A' es' H') as (os' & R' & S').
  rewrite <- E in S'. rewrite (stream_unique _ _ S' _ S) in R'. clear - R R'. revert es' R'. induction R as [|e h d es os (m & _ & _ & ->) _ IH]; intros es' R'.
  - inversion R'; subst. reflexivity.
  - inversion R' as [|e' h' d' es2 os2 (m' & _ & _ & E) R2]; subst. cbn [map]. f_equal; [|now apply IH].
    injection E as A1 A2 A3 E1 E2 E3 A4 A5 _. apply N2Z.inj in E1, E2, E3. unfold fields. congruence.
Qed.
Print Assumptions C106_equal_bytes_partial.

Lemma pinned_expressible : expressible_record pinned.
Proof.
  split; [repeat (apply Forall_cons; [constructor; reflexivity|]); apply Forall_nil|]. do 3 (split; [reflexivity|]). split; [constructor|]. split; [reflexivity|].
  apply Forall_cons; [split; constructor; reflexivity|]. apply Forall_cons; [split; constructor; [reflexivity|split; [intros H; discriminate H|reflexivity]]|]. apply Forall_nil.
Qed.
Lemma odd_expressible : expressible_record odd_mentry.
Proof.
  split; [repeat (apply Forall_cons; [constructor; reflexivity|]); apply Forall_nil|]. do 3 (split; [reflexivity|]). split.
  - apply ex_map; [reflexivity|repeat (apply NoDup_cons; [intros []|]); apply NoDup_nil| |]; cbn [In]; intros k x [[= <- <-]|[]]; [reflexivity|constructor; reflexivity].
  - apply ex_map; [reflexivity|cbn [map fst]; repeat (apply NoDup_cons; [cbn [In]; intuition discriminate|]); apply NoDup_nil| |];
      cbn [In]; intros k x [[= <- <-]|[[= <- <-]|[[= <- <-]|[]]]]; try reflexivity.
    + apply ex_slice; [reflexivity|]. cbn [In]. intros y [<-|[<-|[<-|[<-|[<-|[]]]]]]; constructor; try reflexivity. split; [intros H; discriminate H|reflexivity].
    + apply ex_str. reflexivity.
    + apply ex_map; [reflexivity|apply NoDup_nil| |]; intros k x [].
Qed.

Lemma backwards_any : any_order backwards.
Proof. intros l. apply Permutation_rev. Qed.

(** The record pinned down by the tests, one with nested data in it and maps written
    backwards, and bytes that are no object at all or end too soon. *)
Example C106_inhabited :
  any_order backwards /\ Forall expressible_record [pinned; odd_mentry]
  /\ (exists os, sequence os (fst (msgpack_write backwards (map MRec [pinned; odd_mentry]))) /\ List.length os = 4%nat)
  /\ (forall os, ~ sequence os (String "193" "")) /\ (forall os, ~ sequence os (String "161" ""))
  /\ sequence [OInt (-1)] (String "255" "") /\ sequence [OInt (-1)] (String "208" (String "255" ""))
  /\ sequence [OArray [OInt 3; ONil]; OMap [(OText "k", OBytes "x")]]
       (String "146" (String "003" (String "192" (String "129" (String "161" ("k" ++ String "196" (String "001" "x"))))))).
Proof.
  assert (F : Forall expressible_record [pinned; odd_mentry]).
  { apply Forall_cons; [exact pinned_expressible|]. apply Forall_cons; [exact odd_expressible|]. apply Forall_nil. }
  split; [exact backwards_any|]. split; [exact F|]. split.
  { destruct (C106_wellformed_partial _ _ backwards_any F) as (os & S & R). exists os. split; [exact S|].
    inversion R as [|e h d es o1 _ R2]; subst. inversion R2 as [|e h2 d2 es o2 _ R3]; subst. inversion R3; subst. reflexivity. }
  assert (none : forall c, N_of_ascii c = 193 \/ N_of_ascii c = 161 -> forall os, ~ sequence os (String c "")).
  { intros c Hc os H. inversion H as [|o l t u Ho Hl E1 E2]; subst. destruct Ho as [o t K|s t K|s t K|l2 t v K _|l2 t v K _];
      pose proof (opens_head _ _ K u) as A; pose proof (opens_nonempty _ _ K) as Z.
    - rewrite E2 in A. unfold head_at in A. destruct Hc as [Hc|Hc]; rewrite Hc in A; discriminate A.
    - rewrite str_app_assoc in E2. pose proof (opens_head _ _ K (s ++ u)) as B. rewrite E2 in B. unfold head_at in B. destruct Hc as [Hc|Hc]; rewrite Hc in B; [discriminate B|].
      injection B as B1 B2. destruct s; [discriminate B1|discriminate B2].
    - rewrite str_app_assoc in E2. pose proof (opens_head _ _ K (s ++ u)) as B. rewrite E2 in B. unfold head_at in B. destruct Hc as [Hc|Hc]; rewrite Hc in B; discriminate B.
    - rewrite str_app_assoc in E2. pose proof (opens_head _ _ K (v ++ u)) as B. rewrite E2 in B. unfold head_at in B. destruct Hc as [Hc|Hc]; rewrite Hc in B; discriminate B.
    - rewrite str_app_assoc in E2. pose proof (opens_head _ _ K (v ++ u)) as B. rewrite E2 in B. unfold head_at in B. destruct Hc as [Hc|Hc]; rewrite Hc in B; discriminate B. }
  split; [apply none; now left|]. split; [apply none; now right|].
  split; [exact (sq_more (OInt (-1)) [] (String "255" "") "" (sp_done _ _ (op_negative "255" ltac:(discriminate))) sq_none)|].
  split; [exact (sq_more (OInt (-1)) [] (String "208" (String "255" "")) "" (sp_done _ _ (op_int "208" (String "255" "") (or_introl eq_refl))) sq_none)|].
  refine (sq_more _ _ (String "146" (String "003" (String "192" ""))) _ _ (sq_more _ _ (String "129" (String "161" ("k" ++ String "196" (String "001" "x")))) "" _ sq_none)).
  - refine (sp_array [OInt 3; ONil] (String "146" "") (String "003" (String "192" "")) (op_items_short "146" ltac:(split; [discriminate|reflexivity])) _).
    exact (sq_more (OInt 3) _ (String "003" "") _ (sp_done _ _ (op_positive "003" eq_refl)) (sq_more ONil _ (String "192" "") "" (sp_done _ _ op_nil) sq_none)).
  - refine (sp_map [(OText "k", OBytes "x")] (String "129" "") _ (op_members_short "129" ltac:(split; [discriminate|reflexivity])) _).
    refine (mb_more (OText "k") (OBytes "x") [] (String "161" "k") (String "196" (String "001" "x")) "" _ _ mb_none).
    + exact (sp_text "k" (String "161" "") (op_text_short "161" ltac:(split; [discriminate|reflexivity]))).
    + exact (sp_bytes "x" (String "196" (String "001" "")) (op_bin "196" (String "001" "") (or_introl eq_refl))).
Qed.

(** What is missing for "equal bytes, equal records": the data of a raw event is not in the
    bytes, and a json.Number reads like a text. *)
Theorem C106_equal_data_refuted : exists e e', expressible_record e /\ expressible_record e' /\ m_data e <> m_data e'
  /\ fst (msgpack_write as_is [MRec e]) = fst (msgpack_write as_is [MRec e']).
Proof.
  exists (mk_mentry "s" "a" "i" 1 0 0 "e" "T" (MValue (MNumber "12")) MNil), (mk_mentry "s" "a" "i" 1 0 0 "e" "T" (MValue (MStr "12")) MNil).
  assert (F : forall d, expressible_record (mk_mentry "s" "a" "i" 1 0 0 "e" "T" (MValue d) MNil) <-> expressible d).
  { intros d. unfold expressible_record. cbn [m_data m_stream m_atype m_aid m_eid m_etype m_gsn m_ssn m_ts m_meta]. split; [tauto|]. intros H. split; [repeat (apply Forall_cons; [constructor; reflexivity|]); apply Forall_nil|].
    do 3 (split; [reflexivity|]). split; [constructor|exact H]. }
  split; [apply F; constructor; reflexivity|]. split; [apply F; constructor; reflexivity|]. split; [discriminate|reflexivity].
Qed.
Print Assumptions C106_equal_data_refuted.
