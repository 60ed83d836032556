(** Properties C53, C54 and C75 for MessagePack records. *)
From Coq Require Import ZArith Permutation.
From Verif Require Import Base Text Json JsonSpec Msgpack MsgpackSpec MsgpackProofs.
Open Scope string_scope.
Open Scope N_scope.

Definition mthing_types (t : string) : option (list (string * mfield)) :=
  if String.eqb t "ThingWasDone" then Some [("id", MfText ""); ("number", MfInt 0)] else None.
Definition as_is (l : list string) : list string := l.
Definition backwards (l : list string) : list string := rev l.

(** The record of msgpack_record_serializer_test.go:129-160 and the bytes pinned
    down there. *)
Definition pinned : mentry :=
  mk_mentry "thing-60f01cc527844cde9953c998a2c077a7" "thing" "60f01cc527844cde9953c998a2c077a7" 100 2 1576892379 "" "ThingWasDone"
    (MStruct [("id", MfText "A"); ("number", MfInt 1)]) MNil.
Definition zeros (n : nat) : string := (fix go n := match n with O => "" | S m => String "000" (go m) end) n.
Example the_pinned_bytes : put_record as_is pinned =
  String "138" ("" ++ String "161" "n" ++ String "217" "&thing-60f01cc527844cde9953c998a2c077a7"
  ++ String "161" "a" ++ String "165" "thing"
  ++ String "161" "i" ++ String "217" " 60f01cc527844cde9953c998a2c077a7"
  ++ String "161" "g" ++ String "207" (zeros 7 ++ "d")
  ++ String "161" "s" ++ String "207" (zeros 7 ++ String "002" "")
  ++ String "161" "u" ++ String "207" (zeros 4 ++ "]" ++ String "253" "w" ++ String "219" "")
  ++ String "161" "e" ++ String "160" ""
  ++ String "161" "t" ++ String "172" "ThingWasDone"
  ++ String "161" "d" ++ String "192" ""
  ++ String "161" "m" ++ String "192" ""
  ++ String "130" "" ++ String "162" "id" ++ String "161" "A" ++ String "166" "number" ++ String "211" (zeros 7 ++ String "001" "")).
Proof. vm_compute. reflexivity. Qed.
(** ... and what comes of them when the type is not bound (163-191). *)
Example the_pinned_unbound : msgpack_read (fun _ => None) (put_record as_is pinned)
  = [MRec (mk_mentry (m_stream pinned) "thing" (m_aid pinned) 100 2 1576892379 "" "ThingWasDone"
             (MValue (MMap [("id", MStr "A"); ("number", MInt 1)])) MNil)].
Proof. vm_compute. reflexivity. Qed.

Definition odd_mentry : mentry :=
  mk_mentry "s" "a" "i" 1 0 0 "e" "Other"
    (MValue (MMap [("a", MSlice [MInt (-3)%Z; MUint 18446744073709551615; MFloat 4607182418800017408; MBool true; MNil]);
                   ("b", MStr (String "255" "")); ("c", MMap [])])) (MMap [("user", MStr "joe")]).

Lemma pinned_ordinary : mordinary mthing_types pinned.
Proof.
  unfold mordinary. do 8 (split; [reflexivity|]). split; [exact plain_nil|].
  unfold mdata_of_type, pinned, mthing_types; cbn [m_etype m_data String.eqb Ascii.eqb Bool.eqb]. split; [|split; [reflexivity|]].
  - cbn [map fst]. repeat (apply NoDup_cons; [cbn [In]; intuition discriminate|]). apply NoDup_nil.
  - apply Forall2_cons; [split; [reflexivity|split; reflexivity]|]. apply Forall2_cons; [|apply Forall2_nil].
    split; [reflexivity|]. split; [reflexivity|]. cbn. split; [intros H; discriminate H|reflexivity].
Qed.
Lemma odd_mordinary : mordinary mthing_types odd_mentry.
Proof.
  unfold mordinary. do 8 (split; [reflexivity|]). split.
  - apply plain_map; [reflexivity|exact Logic.I|]. cbn [In]. intros k x [[= <- <-]|[]]. split; [reflexivity|]. apply plain_str. reflexivity.
  - unfold mdata_of_type. cbn [m_etype m_data odd_mentry mthing_types]. change (mthing_types "Other") with (@None (list (string * mfield))). cbn beta iota.
    apply plain_map; [reflexivity|cbn; auto|]. cbn [In]. intros k x [[= <- <-]|[[= <- <-]|[[= <- <-]|[]]]]; (split; [reflexivity|]).
    + apply plain_slice; [reflexivity|]. cbn [In]. intros y [<-|[<-|[<-|[<-|[<-|[]]]]]]; constructor; try reflexivity. split; [intros H; discriminate H|reflexivity].
    + apply plain_str. reflexivity.
    + apply plain_map; [reflexivity|exact Logic.I|]. intros k x [].
Qed.

(** ** C53 for MessagePack.  Reading a written stream yields the records written,
    whatever their number, whatever the order in which Go hands out the entries of
    maps when writing, and for any bytes in texts.  Missing from the full claim:
    json.Number values and raw events, see below. *)
Theorem C53_msgpack_partial : forall order types es, any_order order -> Forall (mordinary types) es ->
  snd (msgpack_write order (map MRec es)) = None
  /\ msgpack_read types (fst (msgpack_write order (map MRec es))) = map MRec es.
Proof.
  intros order types es Ho H. rewrite write_all. split; [reflexivity|]. apply read_all; assumption.
Qed.
Print Assumptions C53_msgpack_partial.

(** The serializer used inside stores, with anything behind the record. *)
Theorem C53_msgpack_serializer_partial : forall order types e rest, any_order order -> mordinary types e ->
  get_record types (put_record order e ++ rest) = Got e rest.
Proof. intros order types e rest Ho H. apply record_back; assumption. Qed.
Print Assumptions C53_msgpack_serializer_partial.

Example C53_msgpack_example :
  any_order backwards /\ Forall (mordinary mthing_types) [pinned; odd_mentry; pinned]
  /\ fst (msgpack_write backwards (map MRec [odd_mentry])) <> fst (msgpack_write as_is (map MRec [odd_mentry]))
  /\ msgpack_read mthing_types (fst (msgpack_write backwards (map MRec [pinned; odd_mentry; pinned]))) = map MRec [pinned; odd_mentry; pinned]
  /\ msgpack_read mthing_types (fst (msgpack_write backwards [])) = [].
Proof.
  split; [intros l; apply Permutation_rev|]. split.
  { repeat apply Forall_cons; try apply Forall_nil; first [apply pinned_ordinary | apply odd_mordinary]. }
  vm_compute. repeat split; try reflexivity. discriminate.
Qed.

Definition with_data (e : mentry) (d : mpayload) : mentry :=
  mk_mentry (m_stream e) (m_atype e) (m_aid e) (m_gsn e) (m_ssn e) (m_ts e) (m_eid e) (m_etype e) d (m_meta e).

(** A raw event has its data in a field msgpack does not see: whatever it holds, an
    empty map is read back. *)
Theorem C53_msgpack_raw_refuted : forall order types e v, any_order order -> types (m_etype e) = None ->
  mordinary types (with_data e (MValue MNil)) ->
  msgpack_read types (fst (msgpack_write order [MRec (with_data e (MRaw v))])) = [MRec (with_data e (MValue (MMap [])))].
Proof.
  intros order types e v Ho Ht H. cbn [msgpack_write fst]. rewrite app_nil_s. unfold msgpack_read.
  pose proof (record_long order (with_data e (MRaw v))) as L.
  rewrite <- (app_nil_s (put_record order (with_data e (MRaw v)))) at 2. cbn [mrecords].
  rewrite record_written with (d := MValue (MMap [])) (x := MRaw v); [|exact Ho| |reflexivity|].
  - destruct (String.length _); [lia|]. reflexivity.
  - destruct H as (H1 & H2 & H3 & H4 & H5 & H6 & H7 & H8 & H9 & _). repeat (split; [assumption|]).
    cbn [with_data m_etype m_data mdata_of_type]. unfold mdata_of_type. rewrite Ht. apply plain_map; [reflexivity|exact Logic.I|]. intros k x [].
  - unfold get_payload. cbn [with_data m_etype]. rewrite Ht. reflexivity.
Qed.
Print Assumptions C53_msgpack_raw_refuted.

(** Numbers a JSON store reads for an unbound event are json.Number values; they are
    written, and read back, as texts. *)
Theorem C53_msgpack_number_refuted : forall order types e s, any_order order -> types (m_etype e) = None -> fits s ->
  mordinary types (with_data e (MValue MNil)) ->
  msgpack_read types (fst (msgpack_write order [MRec (with_data e (MValue (MNumber s)))])) = [MRec (with_data e (MValue (MStr s)))].
Proof.
  intros order types e s Ho Ht Hs H. cbn [msgpack_write fst]. rewrite app_nil_s. unfold msgpack_read.
  pose proof (record_long order (with_data e (MValue (MNumber s)))) as L.
  rewrite <- (app_nil_s (put_record order (with_data e (MValue (MNumber s))))) at 2. cbn [mrecords].
  assert (P : mdata_of_type types (m_etype e) (MValue (MStr s))) by (unfold mdata_of_type; rewrite Ht; apply plain_str; exact Hs).
  rewrite record_written with (d := MValue (MStr s)) (x := MValue (MStr s)); [|exact Ho| |reflexivity|].
  - destruct (String.length _); [lia|]. reflexivity.
  - destruct H as (H1 & H2 & H3 & H4 & H5 & H6 & H7 & H8 & H9 & _). repeat (split; [assumption|]). exact P.
  - apply payload_back; [exact Ho|exact P].
Qed.
Print Assumptions C53_msgpack_number_refuted.

Example C53_msgpack_refuted_example :
  mordinary (fun _ => None) (with_data pinned (MValue MNil))
  /\ msgpack_read (fun _ => None) (fst (msgpack_write as_is [MRec (with_data pinned (MRaw (MMap [("id", MStr "A")])))]))
     = [MRec (with_data pinned (MValue (MMap [])))]
  /\ msgpack_read (fun _ => None) (fst (msgpack_write as_is [MRec (with_data pinned (MValue (MNumber "12")))]))
     = [MRec (with_data pinned (MValue (MStr "12")))].
Proof.
  split; [|vm_compute; split; reflexivity]. unfold mordinary. repeat split; try reflexivity; exact plain_nil.
Qed.

(** ** C54 for MessagePack: refuted.  An iterator that fails is written like one that
    ended, no error is reported, and the bytes read as a complete stream. *)
Theorem C54_msgpack_refuted : forall order types es x, any_order order -> Forall (mordinary types) es ->
  msgpack_write order (map MRec es ++ [MBad x])%list = msgpack_write order (map MRec es)
  /\ snd (msgpack_write order (map MRec es ++ [MBad x])%list) = None
  /\ msgpack_read types (fst (msgpack_write order (map MRec es ++ [MBad x])%list)) = map MRec es.
Proof.
  intros order types es x Ho H. rewrite write_until, write_all. split; [reflexivity|]. split; [reflexivity|]. apply read_all; assumption.
Qed.
Print Assumptions C54_msgpack_refuted.

Example C54_msgpack_example :
  msgpack_read mthing_types (fst (msgpack_write as_is [MRec pinned; MBad ECanceled])) = [MRec pinned].
Proof. vm_compute. reflexivity. Qed.

(** ** C75 for MessagePack.  However the bytes are cut, what is read is the first
    records, unchanged, and then the end or an error. *)
Theorem C75_msgpack_partial : forall order types es p q, any_order order -> Forall (mordinary types) es ->
  fst (msgpack_write order (map MRec es)) = p ++ q -> mpart_of es (msgpack_read types p).
Proof.
  intros order types es p q Ho H E. rewrite write_all in E. unfold msgpack_read.
  apply (stream_cut order Ho types es H p q); [exact E|lia].
Qed.
Print Assumptions C75_msgpack_partial.

(** Missing: the reader cannot tell every cut.  After any number of records, a stream
    cut right behind the first byte of the next record reads as complete. *)
Theorem C75_msgpack_unnoticed_refuted : forall order types es e rest, any_order order -> Forall (mordinary types) es ->
  exists p q, fst (msgpack_write order (map MRec (es ++ e :: rest)%list)) = p ++ q
  /\ (String.length (fst (msgpack_write order (map MRec es))) < String.length p)%nat /\ q <> ""
  /\ msgpack_read types p = map MRec es.
Proof.
  intros order types es e rest Ho H. rewrite !write_all. cbn [fst].
  exists (stream_text order es ++ String "138" ""). eexists. split; [|split; [|split]].
  - unfold stream_text. rewrite fold_right_app. cbn [fold_right].
    assert (S : forall w, fold_right (fun e rest => put_record order e ++ rest) w es = fold_right (fun e rest => put_record order e ++ rest) "" es ++ w).
    { clear. intros w. induction es as [|x es IH]; [reflexivity|]. cbn [fold_right]. rewrite IH, app_assoc_s. reflexivity. }
    rewrite S, app_assoc_s. f_equal. cbn [append]. unfold put_record, put_struct. rewrite !app_assoc_s. reflexivity.
  - rewrite app_length_s. cbn. lia.
  - discriminate.
  - unfold msgpack_read. pose proof (stream_long order es) as L. rewrite app_length_s. cbn [String.length].
    replace (S (String.length (stream_text order es) + 1)) with (List.length es + S (String.length (stream_text order es) + 1 - List.length es))%nat by lia.
    rewrite records_then by assumption. cbn [mrecords]. change (get_record types (String "138" "")) with (@End mentry). apply app_nil_r.
Qed.
Print Assumptions C75_msgpack_unnoticed_refuted.

Example C75_msgpack_example :
  let text := fst (msgpack_write as_is [MRec pinned; MRec odd_mentry]) in
  msgpack_read mthing_types (String.substring 0 (String.length text - 1) text) = [MRec pinned; MBad EDeserialize]
  /\ msgpack_read mthing_types (String.substring 0 (String.length (put_record as_is pinned) + 1) text) = [MRec pinned].
Proof. vm_compute. split; reflexivity. Qed.
