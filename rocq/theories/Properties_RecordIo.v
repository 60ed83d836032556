(** Theorems about record streams in JSON: C53, C54, C75. *)
From Coq Require Import ZArith.
From Verif Require Import Base DecText Text Json JsonSpec JsonText JsonTextSpec JsonTextProofs RecordIo RecordIoSpec RecordIoProofs.
Open Scope string_scope.
Open Scope N_scope.

(** * Concrete records *)

Definition no_show (f : float) : num := match f with FInt z => Int z | FOther s => Lit s end.
Definition thing_types (t : string) : option (list (string * field)) :=
  if String.eqb t "ThingWasDone" then Some [("id", TText ""); ("number", TInt 0)] else None.
Definition done_entry (n : N) : entry :=
  mk_entry "thing!A" "thing" "A" (n + 1) n 1576892379 "b2c5" "ThingWasDone"
    (Struct [("id", TText "A"); ("number", TInt (-7))]) GNil.
Definition odd_entry : entry :=
  mk_entry "thing!<&>" "thing" "<&>" 3 2 0 "" "SomethingElse"
    (Value (GMap [("list", GSlice [GNumber (Int (-3)); GNumber (Lit "1.5e+10"); GBool true; GNil]); ("text", GStr "a
b")])) (GMap [("user", GStr "joe")]).

Lemma plain s : ascii_only s = true -> is_text s.
Proof. apply ascii_text. Qed.

Lemma done_ordinary n : n + 1 < 2 ^ 64 -> ordinary thing_types (done_entry n).
Proof.
  intros H. unfold ordinary, done_entry.
  cbn [e_stream e_atype e_aid e_gsn e_ssn e_ts e_eid e_etype e_data e_meta].
  split; [apply plain; reflexivity|]. split; [apply plain; reflexivity|]. split; [apply plain; reflexivity|].
  split; [apply plain; reflexivity|]. split; [apply plain; reflexivity|].
  split; [exact H|]. split; [eapply N.lt_trans; [|exact H]; lia|]. split; [reflexivity|].
  split; [constructor|]. split; [vm_compute; discriminate|].
  unfold data_of_type, thing_types. cbn [String.eqb Ascii.eqb Bool.eqb]. split.
  - repeat constructor; cbn; intuition discriminate.
  - repeat constructor; try (apply plain; reflexivity); cbn; try lia.
Qed.

Lemma odd_ordinary : ordinary thing_types odd_entry.
Proof.
  unfold ordinary, odd_entry. cbn [e_stream e_atype e_aid e_gsn e_ssn e_ts e_eid e_etype e_data e_meta].
  do 5 (split; [apply plain; reflexivity|]). do 3 (split; [reflexivity|]).
  split. { constructor; [exact Logic.I|]. intros k x [E|[]]. injection E as <- <-. split; [apply plain; reflexivity|constructor; apply plain; reflexivity]. }
  split; [vm_compute; discriminate|].
  split; [discriminate|]. split; [|vm_compute; discriminate].
  constructor; [cbn; auto|]. intros k x [E|[E|[]]]; injection E as <- <-; (split; [apply plain; reflexivity|]).
  - constructor. intros y [<-|[<-|[<-|[<-|[]]]]]; constructor; try exact Logic.I.
    exists false, "1", ".5", "e+10". split; [reflexivity|]. split; [right; exists "1"%char, ""; repeat split; discriminate|].
    split; [right; exists "5"; repeat split; discriminate|].
    split; [right; exists "e"%char, "+", "10"; repeat split; auto; discriminate|]. left. discriminate.
  - constructor. apply plain. reflexivity.
Qed.

Lemma two_ordinary : Forall (ordinary thing_types) [done_entry 1; odd_entry; done_entry 2].
Proof.
  apply Forall_cons; [apply done_ordinary; reflexivity|]. apply Forall_cons; [apply odd_ordinary|].
  apply Forall_cons; [apply done_ordinary; reflexivity|]. apply Forall_nil.
Qed.

(** * C53: record streams round-trip *)

(** For the JSON stream: any number of records, whatever their texts (any Unicode),
    numbers below 2^64, payloads a JSON reader can produce.  Missing: records whose
    data is nil, Go strings that are not UTF-8, float64 and other Go numbers inside
    interface{} values (they come back as json.Number), more than 10000 levels. *)
Theorem C53_json_partial : forall show types es,
  Forall (ordinary types) es ->
  exists text, json_write show (map Rec es) = (text, None) /\ json_read types text = map Rec es.
Proof.
  intros show types es H. exists ("[" ++ jdoc show es). split; [apply (json_write_ok show types es H)|apply json_whole; exact H].
Qed.
Print Assumptions C53_json_partial.

Theorem C53_ndjson_partial : forall show types es,
  Forall (ordinary types) es ->
  exists text, ndjson_write show (map Rec es) = (text, None) /\ ndjson_read types text = map Rec es.
Proof.
  intros show types es H. exists (ndoc show es). split; [apply (ndjson_write_ok show types es H)|apply ndjson_whole; exact H].
Qed.
Print Assumptions C53_ndjson_partial.

Example C53_example :
  fst (ndjson_write no_show (map Rec [done_entry 1; odd_entry])) =
  (print (record_tree no_show (done_entry 1)) ++ newline ++ print (record_tree no_show odd_entry))%string
  /\ json_read thing_types (fst (json_write no_show (map Rec [done_entry 1; odd_entry; done_entry 2])))
     = map Rec [done_entry 1; odd_entry; done_entry 2]
  /\ json_read thing_types (fst (json_write no_show [])) = []
  /\ fst (json_write no_show []) = "[]".
Proof. vm_compute. repeat split. Qed.

(** The same for one record: the JSON serializer the stores use by default. *)
Theorem C53_serializer_partial : forall show types e, ordinary types e ->
  exists text, marshal show e = Some text
  /\ exists tree, read_value text = Some (tree, "") /\ unmarshal types tree = Some e.
Proof.
  intros show types e H. exists (text_of show e). split; [apply (marshal_ok show types e H)|].
  exists (record_tree show e). split; [|apply unmarshal_back; exact H].
  pose proof (read_entry show types e "" H) as R. rewrite app_nil_s in R. exact R.
Qed.
Print Assumptions C53_serializer_partial.

(** A record without data is written but cannot be read back. *)
Theorem C53_no_data_refuted : forall show types e, ordinary types e ->
  let e' := mk_entry (e_stream e) (e_atype e) (e_aid e) (e_gsn e) (e_ssn e) (e_ts e) (e_eid e) (e_etype e) (Value GNil) (e_meta e) in
  exists text, json_write show [Rec e'] = (text, None) /\ json_read types text = [Bad EDeserialize]
  /\ ndjson_write show [Rec e'] = (print (record_tree show e'), None)
  /\ ndjson_read types (print (record_tree show e')) = [Bad EDeserialize].
Proof. intros show types e H e'. exact (no_data show types e H). Qed.
Print Assumptions C53_no_data_refuted.

(** Bytes that are not UTF-8 are lost: two records that differ are written alike. *)
Theorem C53_bytes_refuted : forall show, exists e e', e <> e' /\ marshal show e = marshal show e' /\ marshal show e <> None.
Proof.
  intros show.
  exists (mk_entry "s" "t" (String "128" "") 0 0 0 "" "T" (Value (GBool true)) GNil),
         (mk_entry "s" "t" (String "129" "") 0 0 0 "" "T" (Value (GBool true)) GNil).
  split; [discriminate|]. split; [reflexivity|]. vm_compute. discriminate.
Qed.
Print Assumptions C53_bytes_refuted.

(** A float64 payload comes back as another Go type. *)
Theorem C53_float_refuted : forall types, types "T" = None ->
  exists e e', e <> e' /\ json_read types (fst (json_write no_show [Rec e])) = [Rec e'].
Proof.
  intros types H.
  exists (mk_entry "s" "t" "i" 0 0 0 "" "T" (Value (GFloat (FInt 5))) GNil),
         (mk_entry "s" "t" "i" 0 0 0 "" "T" (Value (GNumber (Int 5))) GNil).
  split; [discriminate|].
  set (w := fst _). vm_compute in w. subst w.
  unfold json_read. cbn [skip append]. change (blank "[") with false. cbv iota. rewrite Ascii.eqb_refl.
  cbn [records_from String.length].
  match goal with |- context [skip ?s] => let x := eval vm_compute in (skip s) in change (skip s) with x end. cbv iota.
  match goal with |- context [Ascii.eqb ?a ?b || ?c] => change (Ascii.eqb a b || c) with false end. cbv iota. cbn [andb].
  match goal with |- context [read_value ?s] => let x := eval vm_compute in (read_value s) in change (read_value s) with x end. cbv iota.
  match goal with |- context [unmarshal types ?j] => assert (E : unmarshal types j = Some (mk_entry "s" "t" "i" 0 0 0 "" "T" (Value (GNumber (Int 5))) GNil)) end.
  { cbn. rewrite H. reflexivity. }
  rewrite E. reflexivity.
Qed.
Print Assumptions C53_float_refuted.

(** * C54: writers report read errors *)

(** They never do: an iterator that ends with an error is written exactly as one
    that just ends, without an error, and what was written reads as complete. *)
Theorem C54_refuted : forall show types es x rest, Forall (ordinary types) es ->
  json_write show (map Rec es ++ Bad x :: rest)%list = json_write show (map Rec es)
  /\ snd (json_write show (map Rec es ++ Bad x :: rest)%list) = None
  /\ json_read types (fst (json_write show (map Rec es ++ Bad x :: rest)%list)) = map Rec es
  /\ ndjson_write show (map Rec es ++ Bad x :: rest)%list = ndjson_write show (map Rec es)
  /\ snd (ndjson_write show (map Rec es ++ Bad x :: rest)%list) = None
  /\ ndjson_read types (fst (ndjson_write show (map Rec es ++ Bad x :: rest)%list)) = map Rec es.
Proof.
  intros show types es x rest H. rewrite json_error_end, ndjson_error_end.
  rewrite (json_write_ok show types es H), (ndjson_write_ok show types es H). cbn [fst snd].
  repeat split; [apply json_whole|apply ndjson_whole]; exact H.
Qed.
Print Assumptions C54_refuted.

Example C54_example :
  snd (json_write no_show [Rec (done_entry 1); Bad ECanceled]) = None
  /\ json_read thing_types (fst (json_write no_show [Rec (done_entry 1); Bad ECanceled])) = [Rec (done_entry 1)].
Proof. vm_compute. split; reflexivity. Qed.

(** What the writers do report: a record that cannot be written.  The records
    before it are in the text. *)
Theorem C54_unwritable_partial : forall show types es e rest, Forall (ordinary types) es -> marshal show e = None ->
  exists text text',
    json_write show (map Rec es ++ Rec e :: rest)%list = (text, Some ESerialize) /\ json_read types text = map Rec es
    /\ ndjson_write show (map Rec es ++ Rec e :: rest)%list = (text', Some ESerialize) /\ ndjson_read types text' = map Rec es.
Proof. intros show types es e rest H He. exact (unwritable show types es e rest H He). Qed.
Print Assumptions C54_unwritable_partial.

Example C54_unwritable_example :
  let e := mk_entry "s" "t" "i" 0 0 0 "" "T" (Value (GNumber (Lit "abc"))) GNil in
  marshal no_show e = None /\ snd (json_write no_show [Rec (done_entry 1); Rec e; Rec (done_entry 2)]) = Some ESerialize.
Proof. vm_compute. split; reflexivity. Qed.

(** * C75: reading a stream that was cut short *)

(** However much of the text arrives, no record is made up, changed or out of
    order. *)
Theorem C75_json_partial : forall show types es p, Forall (ordinary types) es ->
  cut_of p (fst (json_write show (map Rec es))) -> part_of es (json_read types p).
Proof. intros show types es p H. rewrite (json_write_ok show types es H). apply json_cut. exact H. Qed.
Print Assumptions C75_json_partial.

Theorem C75_ndjson_partial : forall show types es p, Forall (ordinary types) es ->
  cut_of p (fst (ndjson_write show (map Rec es))) -> part_of es (ndjson_read types p).
Proof. intros show types es p H. rewrite (ndjson_write_ok show types es H). apply ndjson_cut. exact H. Qed.
Print Assumptions C75_ndjson_partial.

(** But a JSON document without its end reads as if it were whole. *)
Theorem C75_unnoticed_refuted : forall show types es k, Forall (ordinary types) es ->
  exists p q, fst (json_write show (map Rec es)) = (p ++ q)%string /\ q <> "" /\ json_read types p = map Rec (firstn k es).
Proof. intros show types es k H. exact (unnoticed show types es k H). Qed.
Print Assumptions C75_unnoticed_refuted.

Example C75_example :
  let text := fst (json_write no_show [Rec (done_entry 1); Rec odd_entry]) in
  json_read thing_types (String.substring 0 250 text) = [Rec (done_entry 1); Bad EDeserialize]
  /\ json_read thing_types (String.substring 0 (String.length text - 1) text) = [Rec (done_entry 1); Rec odd_entry].
Proof. vm_compute. split; reflexivity. Qed.

(** A stream in the other format is refused: nothing of it is read. *)
Theorem C75_other_format_partial : forall show types e es, Forall (ordinary types) (e :: es) ->
  json_read types (fst (ndjson_write show (map Rec (e :: es)))) = [Bad EDeserialize]
  /\ ndjson_read types (fst (json_write show (map Rec (e :: es)))) = [Bad EDeserialize].
Proof.
  intros show types e es H. rewrite (ndjson_write_ok show types _ H), (json_write_ok show types _ H). cbn [fst]. split.
  - assert (E : exists r, text_of show e = String "{" (String quote_char r)) by (eexists; reflexivity).
    destruct E as (r & E). cbn [ndoc]. rewrite E. reflexivity.
  - unfold ndjson_read. cbn [append records_from skip]. change (blank "[") with false. cbv iota.
    change (Ascii.eqb "[" "]" || Ascii.eqb "[" "}") with false. cbn [andb]. cbv iota. unfold read_value. cbn [String.length].
    set (d := jdoc _ _). replace (2 * S (String.length d))%nat with (S (S (2 * String.length d))) by lia.
    cbn [value skip]. change (blank "[") with false. cbv iota. change (Ascii.eqb "[" quote_char) with false. change (Ascii.eqb "[" "[") with true. cbv iota.
    change (max_nesting =? 0) with false. cbv iota. destruct (skip d) as [|c r]; [reflexivity|]. destruct (Ascii.eqb c "]"); [reflexivity|].
    destruct (elements _ _ _) as [[l r']|]; reflexivity.
Qed.
Print Assumptions C75_other_format_partial.

Example C75_formats :
  json_read thing_types (fst (ndjson_write no_show [Rec (done_entry 1); Rec odd_entry])) = [Bad EDeserialize]
  /\ ndjson_read thing_types (fst (json_write no_show [Rec (done_entry 1)])) = [Bad EDeserialize]
  /\ json_read thing_types "{}" = [].
Proof. vm_compute. repeat split; reflexivity. Qed.

(** But the JSON reader does not ask for an array: behind a null, a number, a text or
    a boolean it reads records that no commas part and no bracket closes. *)
Theorem C75_no_array_refuted : forall show types es, Forall (ordinary types) es ->
  json_read types ("null" ++ newline ++ fst (ndjson_write show (map Rec es)))
  = ndjson_read types (newline ++ fst (ndjson_write show (map Rec es)))
  /\ (es <> [] -> json_read types ("null" ++ newline ++ fst (ndjson_write show (map Rec es))) = map Rec es).
Proof.
  intros show types es H. rewrite (ndjson_write_ok show types _ H). cbn [fst]. split; [reflexivity|]. intros Hn.
  destruct es as [|e es]; [congruence|]. inversion H as [|? ? He Hes]; subst. cbn [ndoc].
  transitivity (ndjson_read types (newline ++ text_of show e ++ ntail show es)); [reflexivity|].
  unfold ndjson_read. rewrite ntail_run.
  destruct (run_over show types false (e :: es) H "" (S (String.length (newline ++ text_of show e ++ run show newline es ++ "")))) as (f' & Hf & E).
  { cbn [sep_of run fold_right]. fold (run show newline es). rewrite !app_length_s. lia. }
  cbn [sep_of run fold_right] in E. fold (run show newline es) in E. rewrite !app_assoc_s in E.
  (* the first record is read like the ones behind a separator *)
  transitivity (records_from types (S (String.length (newline ++ text_of show e ++ run show newline es ++ ""))) false true (newline ++ text_of show e ++ run show newline es ++ "")).
  - reflexivity.
  - rewrite E. destruct f' as [|f']; [lia|]. cbn. now rewrite app_nil_r.
Qed.
Print Assumptions C75_no_array_refuted.

Example C75_null : json_read thing_types ("null" ++ newline ++ fst (ndjson_write no_show [Rec (done_entry 1); Rec odd_entry])) = [Rec (done_entry 1); Rec odd_entry].
Proof. vm_compute. reflexivity. Qed.
