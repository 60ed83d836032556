(** Theorems about JSON texts of any layout: C101. *)
From Coq Require Import ZArith.
From Verif Require Import Base DecText Text Json JsonSpec JsonProofs JsonText JsonTextSpec JsonTextProofs JsonGrammar JsonGrammarProofs JsonGrammarReads
  RecordIo RecordIoSpec RecordIoProofs JsonRecordSpec JsonRecordProofs.
Import JsonGrammar.
Open Scope string_scope.
Open Scope N_scope.

(** * Which texts are read, and as what *)

(** A value is read from the front of a text exactly if the text begins, behind white
    space, with a JSON text of that value (RFC 8259, nested at most 10000 deep; half
    surrogate pairs and bytes that are no UTF-8 count as U+FFFD).  A number is read as
    far as it goes. *)
Theorem C101_reads : forall s j rest,
  (read_value s = Some (j, rest) -> exists w t, s = w ++ t ++ rest /\ blanks w /\ text_of 10000 j t)
  /\ (forall w t, s = w ++ t ++ rest -> blanks w -> text_of 10000 j t -> (forall n, j = JNum n -> ends_number rest) ->
      read_value s = Some (j, rest)).
Proof.
  intros s j rest. split; [apply read_says|]. intros w t -> Hw Ht Hn. apply read_reads; [exact Hw|exact Ht|].
  intros E. destruct j; try discriminate. now apply (Hn n).
Qed.
Print Assumptions C101_reads.

(** A whole text is read as [j] exactly if it is a JSON text of [j], with white space
    around it. *)
Theorem C101_whole_texts : forall s j,
  (exists rest, read_value s = Some (j, rest) /\ blanks rest)
  <-> exists w t w', s = w ++ t ++ w' /\ blanks w /\ text_of 10000 j t /\ blanks w'.
Proof.
  intros s j. split.
  - intros (rest & H & Hr). apply read_says in H as (w & t & -> & Hw & Ht). exists w, t, rest. auto.
  - intros (w & t & w' & -> & Hw & Ht & Hw'). exists w'. split; [|exact Hw']. apply read_reads; [exact Hw|exact Ht|].
    intros _. rewrite <- (app_nil_s w'). apply blanks_end; [exact Hw'|exact Logic.I].
Qed.
Print Assumptions C101_whole_texts.

(** No text says two things. *)
Theorem C101_unambiguous : forall t j j', text_of 10000 j t -> text_of 10000 j' t -> j = j'.
Proof.
  intros t j j' H H'. pose proof (read_reads "" t j "" blanks_nil H (fun _ => Logic.I)) as R.
  pose proof (read_reads "" t j' "" blanks_nil H' (fun _ => Logic.I)) as R'. congruence.
Qed.
Print Assumptions C101_unambiguous.

(** What is written is such a text: any value whose strings are well-formed. *)
Theorem C101_written : forall j, sound j -> nesting j <= 10000 -> text_of 10000 j (print j).
Proof.
  intros j Hj Hn. pose proof (read_back j "" Hj Hn (fun _ => Logic.I)) as R. rewrite app_nil_s in R.
  destruct (read_says _ _ _ R) as (w & t & E & Hw & Ht). rewrite app_nil_s in E.
  destruct (print_head j Hj) as (c & r & Ec & Hb & _). destruct w as [|a w]; [cbn in E; now rewrite E|exfalso].
  apply blanks_cons in Hw as [Ha _]. rewrite Ec in E. injection E as -> _. congruence.
Qed.
Print Assumptions C101_written.

(** Texts that are laid out freely, and texts that are none. *)
Example C101_texts :
  text_of 1 (JArr [JNum (Int 1); JStr "A"; JBool true]) ("[ 1," ++ quoted_text "\u0041" ++ String "009" "," ++ "true ]")
  /\ string_text (utf8 128512) "\uD83d\uDe00" /\ string_text "/" "\/" /\ string_text (utf8 65533 ++ "x") "\ud83dx"
  /\ read_value "[01]" = None /\ read_value "[1,]" = None /\ read_value "{""a"" 1}" = None /\ read_value (quoted_text "\x") = None
  /\ read_value (quoted_text (String "010" "")) = None /\ read_value "+1" = None /\ read_value "nul" = None
  /\ ~ exists j, text_of 10000 j "[1,]".
Proof.
  assert (Hx : forall a b c d i j k l, hex_digit a i -> hex_digit b j -> hex_digit c k -> hex_digit d l ->
    hex_text (String a (String b (String c (String d "")))) (N.of_nat i * 4096 + N.of_nat j * 256 + N.of_nat k * 16 + N.of_nat l)).
  { intros a b c d i j k l Ha Hb Hc Hd. exists a, b, c, d, i, j, k, l. repeat (split; [reflexivity || assumption|]). reflexivity. }
  assert (B : forall w, forallb blank (list_ascii_of_string w) = true -> blanks w).
  { intros w H. unfold blanks. rewrite forallb_forall in H. apply Forall_forall. intros a Ha. apply blank_listed. now apply H. }
  split; [|split; [|split; [|split]]].
  - apply (text_items 1 _ (" " ++ "1" ++ "" ++ "," ++ "" ++ quoted_text "\u0041" ++ String "009" "" ++ "," ++ "" ++ "true" ++ " ")); [reflexivity|].
    apply more_items; [apply B; reflexivity..| |].
    + exact (text_number 0 (Int 1) Logic.I).
    + apply more_items; [apply B; reflexivity..| |].
      * apply text_string. apply (said_code "0041" 65 "" ""); [|left; reflexivity|constructor].
        apply (Hx "0" "0" "4" "1" 0 0 4 1)%char%nat; left; reflexivity.
      * apply one_item; [apply B; reflexivity..|constructor].
  - apply (said_pair "D83d" "De00" 55357 56832 "" ""); [| |split; reflexivity || discriminate..|constructor].
    + apply (Hx "D" "8" "3" "d" 13 8 3 13)%char%nat; (left; reflexivity) || (right; reflexivity).
    + apply (Hx "D" "e" "0" "0" 13 14 0 0)%char%nat; (left; reflexivity) || (right; reflexivity).
  - apply (said_escaped "/" "/" "" ""); [right; right; left; reflexivity|constructor].
  - apply (said_half "d83d" 55357 "x" "x").
    + apply (Hx "d" "8" "3" "d" 13 8 3 13)%char%nat; left; reflexivity.
    + split; [discriminate|reflexivity].
    + intros _ h2 low r _ _ E. discriminate E.
    + apply (said_character 120 "" ""); [left; reflexivity|discriminate..|constructor].
  - repeat (split; [vm_compute; reflexivity|]). intros (j & H). pose proof (read_reads "" _ j "" blanks_nil H (fun _ => Logic.I)) as R.
    vm_compute in R. discriminate R.
Qed.

(** * Streams of records *)

(** A JSON array of objects that say records is read as these records, however it is
    laid out: white space, escapes, order and case of the names, unknown members.
    Missing: objects that say two things about one field. *)
Theorem C101_json_partial : forall types s js es,
  proper types -> array_text js s -> Forall (tidy types) js -> Forall2 (record_says types) js es ->
  json_read types s = map Rec es.
Proof. intros types s js es Hp Ha Ht Hr. rewrite (read_array types js s Ha). now apply outcome_all. Qed.
Print Assumptions C101_json_partial.

(** The same for texts one behind the other; a line may also break inside them. *)
Theorem C101_ndjson_partial : forall types s js es,
  proper types -> series js s -> Forall (tidy types) js -> Forall2 (record_says types) js es ->
  ndjson_read types s = map Rec es.
Proof.
  intros types s js es Hp Ha Ht Hr. unfold ndjson_read. rewrite (read_series types js s Ha) by lia. now apply outcome_all.
Qed.
Print Assumptions C101_ndjson_partial.

(** The first value that says no record is reported, behind the records before it. *)
Theorem C101_no_record_partial : forall types js es j rest s,
  proper types -> Forall (tidy types) js -> tidy types j -> Forall2 (record_says types) js es -> (forall e, ~ record_says types j e) ->
  (array_text (js ++ j :: rest) s -> json_read types s = (map Rec es ++ [Bad EDeserialize])%list)
  /\ (series (js ++ j :: rest) s -> ndjson_read types s = (map Rec es ++ [Bad EDeserialize])%list).
Proof.
  intros types js es j rest s Hp Ht Hj Hr Hno. split; intros H.
  - rewrite (read_array types _ s H). now apply outcome_bad.
  - unfold ndjson_read. rewrite (read_series types _ s H) by lia. now apply outcome_bad.
Qed.
Print Assumptions C101_no_record_partial.

(** The serializer of the stores: a record is decoded from a text exactly if the text
    begins with one that says this record. *)
Theorem C101_serializer_partial : forall types s e,
  proper types -> (forall w t rest j, s = w ++ t ++ rest -> blanks w -> text_of 10000 j t -> tidy types j) ->
  (exists j rest, read_value s = Some (j, rest) /\ unmarshal types j = Some e)
  <-> exists w t rest j, s = w ++ t ++ rest /\ blanks w /\ text_of 10000 j t /\ record_says types j e.
Proof.
  intros types s e Hp Ht. split.
  - intros (j & rest & R & U). apply read_says in R as (w & t & -> & Hw & Hj). exists w, t, rest, j. split; [reflexivity|]. split; [exact Hw|]. split; [exact Hj|].
    apply unmarshal_says; [exact Hp|exact (Ht w t rest j eq_refl Hw Hj)|exact U].
  - intros (w & t & rest & j & -> & Hw & Hj & Hr). exists j, rest. split.
    + apply read_reads; [exact Hw|exact Hj|]. destruct Hr as (ms & -> & _). discriminate.
    + apply unmarshal_says; [exact Hp|exact (Ht w t rest j eq_refl Hw Hj)|exact Hr].
Qed.
Print Assumptions C101_serializer_partial.

(** Without the condition on members it is false: of two members for one field the last
    one counts, but a null does not. *)
Theorem C101_last_member_refuted : forall types, types "T" = None ->
  exists e, unmarshal types (JObj [("eventType", JStr "T"); ("EVENTTYPE", JNull); ("data", JBool true)]) = Some e /\ e_etype e = "T".
Proof.
  intros types H. eexists. split.
  - unfold unmarshal. match goal with |- context [decode_struct ?a ?b] => let x := eval vm_compute in (decode_struct a b) in change (decode_struct a b) with x end.
    cbv iota. unfold decode_data. rewrite H. reflexivity.
  - reflexivity.
Qed.
Print Assumptions C101_last_member_refuted.

(** * A document that no program of /repo wrote *)

Definition wide_types (t : string) : option (list (string * field)) :=
  if String.eqb t "ThingWasDone" then Some [("id", TText ""); ("number", TInt 5); ("tags", TAny GNil)] else None.

Definition q (s : string) : string := quoted_text s.
Definition wide_text : string :=
  "  [ {" ++ q "DATA" ++ ": { " ++ q "number" ++ ": -7, " ++ q "colour" ++ ":[ ], " ++ q "ID" ++ ":" ++ q "\u0041" ++ "}, "
  ++ newline ++ q "eventType" ++ " :" ++ q "Thing\u0057asDone" ++ "," ++ q "globalSequenceNumber" ++ ":18446744073709551615," ++ q "streamName" ++ ":null },"
  ++ newline ++ "{" ++ q "aggregateID" ++ ":" ++ q "\ud83D\udE00" ++ "," ++ q "data" ++ ":[1.50, {" ++ q "b" ++ ":1," ++ q "a" ++ ":false}] } ] trailing".
Definition wide_trees : list json :=
  [JObj [("DATA", JObj [("number", JNum (Int (-7))); ("colour", JArr []); ("ID", JStr "A")]); ("eventType", JStr "ThingWasDone");
         ("globalSequenceNumber", JNum (Int 18446744073709551615)); ("streamName", JNull)];
   JObj [("aggregateID", JStr (utf8 128512)); ("data", JArr [JNum (Lit "1.50"); JObj [("b", JNum (Int 1)); ("a", JBool false)]])]].
Definition wide_entries : list entry :=
  [mk_entry "" "" "" 18446744073709551615 0 0 "" "ThingWasDone" (Struct [("id", TText "A"); ("number", TInt (-7)); ("tags", TAny GNil)]) GNil;
   mk_entry "" "" (utf8 128512) 0 0 0 "" "" (Value (GSlice [GNumber (Lit "1.50"); GMap [("a", GBool false); ("b", GNumber (Int 1))]])) GNil].

Fixpoint targets (l : list (string * field)) (ms : list (string * json)) : list string :=
  match ms with [] => [] | (k, _) :: rest => match field_named k l with Some n => n :: targets l rest | None => targets l rest end end.
Lemma targets_in l ms k j n : In (k, j) ms -> means (map fst l) k n -> In n (targets l ms).
Proof.
  induction ms as [|[k' j'] ms IH]; [intros []|]. cbn [targets]. pose proof (field_named_means k' l) as F. intros [E|Hin] Hm.
  - injection E as -> ->. destruct (field_named k l) as [n'|]; [left; eapply means_fun; eassumption|now apply F in Hm].
  - destruct (field_named k' l); [right|]; auto.
Qed.
Lemma targets_clean l ms : NoDup (targets l ms) -> clean (map fst l) ms.
Proof.
  induction ms as [|[k j] ms IH]; [intros _; exact Logic.I|]. cbn [targets clean]. pose proof (field_named_means k l) as F. destruct (field_named k l) as [n|].
  - intros H. inversion H as [|? ? Hn Hnd]; subst. split; [|auto]. intros m k' j' Hm Hin Hm'. apply Hn. rewrite (means_fun _ _ _ _ F Hm). eapply targets_in; eassumption.
  - intros H. split; [|auto]. intros m k' j' Hm. now apply F in Hm.
Qed.

Lemma wide_proper : proper wide_types.
Proof.
  intros t zero. unfold wide_types. destruct (String.eqb t "ThingWasDone"); [|discriminate]. intros [= <-]. repeat constructor; cbn; intuition discriminate.
Qed.
Lemma wide_tidy : Forall (tidy wide_types) wide_trees.
Proof.
  assert (D : forall ms t zero, In ms [[("number", JNum (Int (-7))); ("colour", JArr []); ("ID", JStr "A")]] -> wide_types t = Some zero -> clean (map fst zero) ms).
  { intros ms t zero [<-|[]]. unfold wide_types. destruct (String.eqb t "ThingWasDone"); [|discriminate]. intros [= <-].
    apply targets_clean. vm_compute. repeat constructor; cbn; intuition discriminate. }
  repeat apply Forall_cons; [| |apply Forall_nil]; intros ms [= <-]; (split; [apply (targets_clean empty_record); vm_compute; repeat constructor; cbn; intuition discriminate|]);
    intros k ms' t zero Hin _ Hz.
  - destruct Hin as [E|[E|[E|[E|[]]]]]; try discriminate E. injection E as <- <-. apply (D _ t zero); [now left|exact Hz].
  - destruct Hin as [E|[E|[]]]; discriminate E.
Qed.
Lemma wide_array : array_text wide_trees wide_text.
Proof.
  set (s := wide_text). vm_compute in s.
  assert (E : elements 400 10000 (String.substring 3 (String.length wide_text) wide_text) = Some (wide_trees, " trailing")) by (vm_compute; reflexivity).
  destruct (proj1 (proj2 (value_says _)) _ _ _ _ E) as (body & Eb & Hb).
  replace s with ("  " ++ "[" ++ body ++ "]" ++ " trailing").
  - apply array_some; [apply blanks_cons; split; [reflexivity|]; apply blanks_cons; split; [reflexivity|apply blanks_nil]|exact Hb].
  - change ("]" ++ " trailing") with (String "]" " trailing"). rewrite <- Eb. vm_compute. reflexivity.
Qed.
Lemma wide_says : Forall2 (record_says wide_types) wide_trees wide_entries.
Proof.
  pose proof wide_tidy as T. unfold wide_trees, wide_entries in *. inversion T as [|? ? T1 T']; subst. inversion T' as [|? ? T2 _]; subst.
  repeat apply Forall2_cons; [| |apply Forall2_nil]; apply (unmarshal_says wide_types wide_proper); try assumption; vm_compute; reflexivity.
Qed.

Example C101_inhabited :
  proper wide_types /\ array_text wide_trees wide_text /\ Forall (tidy wide_types) wide_trees /\ Forall2 (record_says wide_types) wide_trees wide_entries
  /\ json_read wide_types wide_text = map Rec wide_entries
  /\ (forall e, ~ record_says wide_types (JArr []) e).
Proof.
  split; [exact wide_proper|]. split; [exact wide_array|]. split; [exact wide_tidy|]. split; [exact wide_says|].
  split; [exact (C101_json_partial _ _ _ _ wide_proper wide_array wide_tidy wide_says)|]. intros e (ms & E & _). discriminate E.
Qed.
