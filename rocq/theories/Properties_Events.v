(** Properties C51, C52, C77 and C78: events with personal data. *)
From Coq Require Import PeanoNat ZArith.
From Verif Require Import Base Text Encodings Crypto CryptoSpec Properties_Crypto Prog KeyStores KeySpec KeyProofs Properties_KeyStores Events EventsSpec EventsProofs.
Open Scope string_scope.

(** Two declarations of pkg/crypto/cryptotest/customer_events.go, and events. *)
Definition signed_up : list field :=
  [mk_field ["ID"] "string" (Some [("encrypt", "subject-id")]);
   mk_field ["Name"] "string" (Some [("encrypt", "personal-data")]);
   mk_field ["Email"] "string" (Some [("encrypt", "personal-data")]);
   mk_field ["Status"] "string" None].
Definition added_birth : list field :=
  [mk_field ["ID"] "string" (Some [("encrypt", "subject-id")]);
   mk_field ["BirthMonth"] "int" (Some [("encrypt", "personal-data"); ("serialized", "BirthMonthEncrypted")]);
   mk_field ["BirthYear"] "int" (Some [("encrypt", "personal-data"); ("serialized", "BirthYearEncrypted")]);
   mk_field ["BirthMonthEncrypted"] "string" None;
   mk_field ["BirthYearEncrypted"] "string" None].
Definition signed_up_data : personal := mk_personal "ID" ["Name"; "Email"] [].
Definition birth_data : personal := mk_personal "ID" [] [("BirthMonthEncrypted", "BirthMonth"); ("BirthYearEncrypted", "BirthYear")].
Definition ann : row := [("ID", VText "c1"); ("Name", VText "Ann"); ("Email", VText "ann@example.com"); ("Status", VText "active")].
Definition ann_birth : row := [("ID", VText "c1"); ("BirthMonth", VInt 2); ("BirthYear", VInt 1999); ("BirthMonthEncrypted", VText ""); ("BirthYearEncrypted", VText "")].
Notation toy_enc := (drawing 12 (gcm_encrypt tag_seal)).
Notation toy_dec := (gcm_decrypt tag_open).
Notation toy := (mem_encryptor toy_enc toy_dec).
Lemma toy_deciphers : deciphers toy_enc toy_dec.
Proof. apply (C50_encryptors_decipher _ _ _ _ shift_cipher tag_opens_sealed). Qed.
(** Outside influences: random bytes for keys and nonces. *)
Definition draws : list (option string * option string) := [(rand32, Some "twelve bytes"); (rand32, Some "bytes twelve")].
Definition other_draws : list (option string * option string) := [(Some "another thirty-two bytes, a key.", Some "twelve bytes"); (None, Some "bytes twelve")].
Definition no_draw : option string * option string := (None, None).

Ltac case_in H := cbn in H; repeat (destruct H as [H|H]; [subst|]); try contradiction.
Lemma ann_proper : apart signed_up_data /\ typed signed_up_data ann /\ clear_targets signed_up_data ann.
Proof.
  split; [|split; [split|]].
  - unfold apart. cbn. repeat constructor; cbn; intuition discriminate.
  - intros f H. case_in H; cbn; eauto.
  - intros f H. case_in H.
  - intros f H. case_in H.
Qed.
Lemma ann_birth_proper : apart birth_data /\ typed birth_data ann_birth /\ clear_targets birth_data ann_birth.
Proof.
  split; [|split; [split|]].
  - unfold apart. cbn. repeat constructor; cbn; intuition discriminate.
  - intros f H. case_in H.
  - intros f H. case_in H; cbn; eexists; (split; [reflexivity|unfold min_int, max_int; lia]).
  - intros f H. case_in H; reflexivity.
Qed.

(** * C52 Generated Encrypt/Decrypt methods round-trip. *)

(** With any encryptor that opens what it sealed: if Encrypt succeeds, Decrypt, also
    after further use of the encryptor, succeeds and restores every field. *)
Theorem C52_round_trip_partial : forall S F (srv : F -> S -> ask -> S * reply) opens, trusty srv opens ->
  forall p e, apart p -> typed p e -> clear_targets p e ->
  forall fs d s s1 e1, finish srv fs d s (gen_encrypt p e) = (s1, (Ended, e1)) ->
  sealed opens s1 p e e1
  /\ forall qs fs' d', exists s2 e2, finish srv fs' d' (after srv s1 qs) (gen_decrypt p e1) = (s2, (Ended, e2)) /\ same e e2.
Proof.
  intros S F srv opens Ht p e A T C fs d s s1 e1 E. destruct (encrypt_ok srv opens Ht _ _ _ _ _ _ _ A E) as [En _]. split; [exact En|].
  intros qs fs' d'. pose proof (encrypted_keep opens _ _ _ _ _ (after_keeps srv opens qs Ht s1) En) as En'.
  destruct (decrypt_ok srv opens Ht p e e1 fs' d' _ A T En') as (s2 & e2 & E2 & Ee & _). exists s2, e2. split; [exact E2|].
  intros f. rewrite Ee. destruct (in_dec string_dec f (targets p)) as [Hi|]; [exact (C f Hi)|reflexivity].
Qed.
(** With the engine on the in-memory key store: after any further calls and deletions,
    Decrypt restores every field unless the subject's key was deleted, and then the
    personal data is blank and the rest as Encrypt left it. *)
Theorem C52_memory_partial : forall enc dec, deciphers enc dec ->
  forall p e, apart p -> typed p e -> clear_targets p e ->
  forall fs d m m1 e1, finish (mem_encryptor enc dec) fs d m (gen_encrypt p e) = (m1, (Ended, e1)) ->
  forall ops fs' d', exists m2 r e2,
    finish (mem_encryptor enc dec) fs' d' (engine_after enc dec m1 ops) (gen_decrypt p e1) = (m2, (r, e2))
    /\ (~ In (Deleting (text_of e (subject_field p))) ops -> r = Ended /\ same e e2)
    /\ (In (Deleting (text_of e (subject_field p))) ops -> texts p ++ sources p <> [] -> r = EndedDeleted /\ blanked p e1 e2)%list.
Proof.
  intros enc dec Hc p e A T C fs d m m1 e1 E ops fs' d'. pose proof (mem_trusty enc dec Hc) as Ht.
  destruct (encrypt_ok _ _ Ht _ _ _ _ _ _ _ A E) as [En _]. set (x := text_of e (subject_field p)).
  assert (Ex : text_of e1 (subject_field p) = x).
  { destruct En as (H & _). unfold x, text_of. rewrite (H (subject_field p)); [reflexivity|]. inversion A; assumption. }
  destruct (finish (mem_encryptor enc dec) fs' d' (engine_after enc dec m1 ops) (gen_decrypt p e1)) as [m2 [r e2]] eqn:Ef.
  exists m2, r, e2. split; [reflexivity|]. split.
  - intros N. assert (En' : sealed (mem_opens enc) (engine_after enc dec m1 ops) p e e1).
    { destruct En as (H1 & H2 & H3 & H4). split; [exact H1|]. split; [|split; [|exact H4]].
      - intros f Hf. destruct (H2 f Hf) as (c & Ec & O). exists c. split; [exact Ec|]. apply engine_keeps; assumption.
      - intros t Hi. destruct (H3 t Hi) as (c & Ec & O). exists c. split; [exact Ec|]. apply engine_keeps; assumption. }
    destruct (decrypt_ok _ _ Ht p e e1 fs' d' _ A T En') as (m3 & e3 & E2 & Ee & _). rewrite E2 in Ef. injection Ef as <- <- <-. split; [reflexivity|].
    intros f. rewrite Ee. destruct (in_dec string_dec f (targets p)) as [Hi|]; [exact (C f Hi)|reflexivity].
  - intros Hd N. assert (G : mem_gone (engine_after enc dec m1 ops) (text_of e1 (subject_field p))) by (rewrite Ex; apply engine_gone; exact Hd).
    destruct (decrypt_gone _ _ p e1 fs' d' _ (mem_deletes enc dec) N G) as [E2 _]. rewrite Ef in E2. cbn in E2. injection E2 as -> ->. split; [reflexivity|]. apply redact_blanks. exact A.
Qed.
(** If the subject's key is deleted, both methods fail and leave no personal data. *)
Theorem C52_deleted : forall S F (srv : F -> S -> ask -> S * reply) gone, deletes srv gone ->
  forall p e, apart p -> (texts p ++ sources p <> [])%list -> forall fs d s, gone s (text_of e (subject_field p)) ->
  exists e1 e2, snd (finish srv fs d s (gen_encrypt p e)) = (EndedDeleted, e1) /\ blanked p e e1
             /\ snd (finish srv fs d s (gen_decrypt p e)) = (EndedDeleted, e2) /\ blanked p e e2.
Proof.
  intros S F srv gone Hd p e A N fs d s G. destruct (decrypt_gone srv gone p e fs d s Hd N G) as [E1 E2]. exists (redact p e), (redact p e).
  split; [exact E2|]. split; [apply redact_blanks; exact A|]. split; [exact E1|apply redact_blanks; exact A].
Qed.
(** A method that fails for another reason leaves the event as it was. *)
Theorem C52_failure_leaves_event : forall S F (srv : F -> S -> ask -> S * reply) p e fs d s,
  (forall s' r e', finish srv fs d s (gen_encrypt p e) = (s', (r, e')) -> r = EndedFailed \/ r = EndedPanic -> e' = e)
  /\ (forall s' r e', finish srv fs d s (gen_decrypt p e) = (s', (r, e')) -> r = EndedFailed \/ r = EndedPanic -> e' = e).
Proof.
  intros. split; intros s' r e' E Hr; apply each_unhappy in E; destruct Hr as [-> | ->]; exact E.
Qed.

(** The hypotheses are met: Ann signs up, and adds a birth date. *)
Example C52_example :
  exists m1 e1 m2 e2, parse_struct signed_up = Personal signed_up_data /\ parse_struct added_birth = Personal birth_data
  /\ finish toy draws no_draw mem_new (gen_encrypt signed_up_data ann) = (m1, (Ended, e1)) /\ text_of e1 "Name" <> "Ann" /\ text_of e1 "Status" = "active"
  /\ finish toy draws no_draw m1 (gen_encrypt birth_data ann_birth) = (m2, (Ended, e2)) /\ int_of e2 "BirthYear" = 0%Z
  /\ (exists e3, snd (finish toy [] no_draw m2 (gen_decrypt birth_data e2)) = (Ended, e3) /\ int_of e3 "BirthYear" = 1999%Z)
  /\ (exists e4, snd (finish toy [] no_draw (engine_after toy_enc toy_dec m2 [Deleting "c1"]) (gen_decrypt signed_up_data e1)) = (EndedDeleted, e4) /\ text_of e4 "Name" = "").
Proof. eexists _, _, _, _. repeat (split; [vm_compute; first [reflexivity | discriminate]|]). split; eexists; split; vm_compute; reflexivity. Qed.

(** What is missing: text in a field that serves as a target is lost, whatever the
    encryptor. *)
Theorem C52_preset_target_refuted : forall S F (srv : F -> S -> ask -> S * reply) opens, trusty srv opens ->
  forall p e t v, apart p -> typed p e -> In t (targets p) -> entry t e = Some (VText v) -> v <> "" ->
  forall fs d s s1 e1, finish srv fs d s (gen_encrypt p e) = (s1, (Ended, e1)) ->
  forall fs' d', exists s2 e2, finish srv fs' d' s1 (gen_decrypt p e1) = (s2, (Ended, e2)) /\ entry t e2 = Some (VText "") /\ ~ same e e2.
Proof.
  intros S F srv opens Ht p e t v A T Hi Ev Nv fs d s s1 e1 E fs' d'. destruct (encrypt_ok srv opens Ht _ _ _ _ _ _ _ A E) as [En _].
  destruct (decrypt_ok srv opens Ht p e e1 fs' d' _ A T En) as (s2 & e2 & E2 & Ee & _). exists s2, e2. split; [exact E2|].
  specialize (Ee t). destruct (in_dec string_dec t (targets p)); [|contradiction]. split; [exact Ee|]. intros C. specialize (C t). rewrite Ee, Ev in C. congruence.
Qed.
Example C52_preset_target_example :
  let e := [("ID", VText "c1"); ("BirthMonth", VInt 2); ("BirthYear", VInt 1999); ("BirthMonthEncrypted", VText "kept?"); ("BirthYearEncrypted", VText "")] in
  typed birth_data e /\ In "BirthMonthEncrypted" (targets birth_data) /\ entry "BirthMonthEncrypted" e = Some (VText "kept?")
  /\ fst (snd (finish toy draws no_draw mem_new (gen_encrypt birth_data e))) = Ended.
Proof.
  split; [split; intros f H; case_in H; cbn; eexists; (split; [reflexivity|unfold min_int, max_int; lia])|]. split; [cbn; auto|]. split; vm_compute; reflexivity.
Qed.

(** * C51 Events saved through the encrypting store read back in the clear. *)

(** Proper events, each passed to one save: what was saved reads back as it was before
    the saves, in order, and the parent store holds cipher texts and blanks instead of
    the personal data. *)
Theorem C51_read_back_partial : forall S F (srv : F -> S -> ask -> S * reply) opens dflt, trusty srv opens ->
  forall s0 start l, each_once l -> (forall n v, event_at n start = Some v -> proper v) ->
  forall sc rs, saves srv dflt (mk_scene s0 start []) l = (sc, rs) ->
  Forall2 (held_as opens (keys sc)) (held sc) (expected start l rs)
  /\ forall d, exists got, read_all srv d (keys sc) (held sc) = (got, Ended)
     /\ Forall2 (fun g e => exists r, g = Some r /\ same e r) got (expected start l rs).
Proof.
  intros S F srv opens dflt Ht s0 start l Ho P sc rs E.
  assert (H : Forall2 (held_as opens (keys sc)) (held sc) (expected start l rs)).
  { apply (saves_ok srv opens Ht dflt start l (mk_scene s0 start []) []) with (rs := rs) in E; [exact E|constructor|exact Ho|exact P|reflexivity]. }
  split; [exact H|]. intros d. exact (read_ok srv opens Ht d _ _ _ H).
Qed.
Definition two_events : list (nat * event) := [(0, mk_event true (Some signed_up_data) ann); (1, mk_event true (Some birth_data) ann_birth); (2, mk_event true None [("Kind", VText "other")])]%nat.
Example C51_example :
  let l := [([(0, draws); (2, [])], Fine); ([(1, draws)], Unanswered)]%nat in
  each_once l /\ (forall n v, event_at n two_events = Some v -> proper v)
  /\ exists sc, saves toy no_draw (mk_scene mem_new two_events []) l = (sc, [SavedAll; ParentFailed])
     /\ expected two_events l [SavedAll; ParentFailed] = [ann; [("Kind", VText "other")]; ann_birth]
     /\ read_all toy no_draw (keys sc) (held sc) = ([Some ann; Some [("Kind", VText "other")]; Some ann_birth], Ended)
     /\ map (fun h => text_of (snd h) "Name") (held sc) <> map (fun e => text_of e "Name") [ann; []; ann_birth].
Proof.
  split; [|split].
  - unfold each_once. cbn. repeat constructor; cbn; intuition discriminate.
  - intros n v H. destruct n as [|[|[|n]]]; cbn in H; try discriminate; injection H as <-; cbn; [split; [reflexivity|apply ann_proper]|split; [reflexivity|apply ann_birth_proper]|exact Logic.I].
  - eexists. split; [vm_compute; reflexivity|]. split; [reflexivity|]. split; [vm_compute; reflexivity|vm_compute; discriminate].
Qed.

(** Retrying a save that failed after the event was encrypted encrypts it again: the
    record reads back with cipher texts for texts and 0 for numbers.  For every
    encryptor and event. *)
Theorem C51_retry_refuted : forall S F (srv : F -> S -> ask -> S * reply) opens dflt, trusty srv opens ->
  forall s0 p e fs1 fs2 sc, apart p -> typed p e ->
  saves srv dflt (mk_scene s0 [(0, mk_event true (Some p) e)] [])%nat [([(0, fs1)], Lost); ([(0, fs2)], Fine)]%nat = (sc, [ParentFailed; SavedAll]) ->
  forall d, exists r, read_all srv d (keys sc) (held sc) = ([Some r], Ended)
    /\ (forall f, In f (texts p) -> exists c, entry f r = Some (VText c) /\ opens (keys sc) (text_of e (subject_field p)) c (text_of e f))
    /\ (forall f, In f (sources p) -> entry f r = Some (VInt 0)).
Proof.
  intros S F srv opens dflt Ht s0 p e fs1 fs2 sc A T E d.
  cbn [saves save encrypt_all event_at Nat.eqb encrypt_event pointer kind body keys events held set_event rows_of flat_map fst app] in E.
  destruct (finish srv fs1 dflt s0 (gen_encrypt p e)) as [s1 [r1 e1]] eqn:E1. cbn [fst snd] in E.
  destruct r1; cbn in E; try (exfalso; discriminate); [|destruct (finish srv fs2 dflt s1 (gen_encrypt p e1)) as [? [[] ?]]; discriminate..].
  destruct (finish srv fs2 dflt s1 (gen_encrypt p e1)) as [s2 [r2 e2]] eqn:E2. cbn [fst snd] in E.
  destruct r2; cbn in E; try (exfalso; discriminate). injection E as <-. cbn [keys held read_all].
  destruct (encrypt_ok srv opens Ht _ _ _ _ _ _ _ A E1) as [En1 _]. destruct (encrypt_ok srv opens Ht _ _ _ _ _ _ _ A E2) as [En2 K2].
  destruct (decrypt_ok srv opens Ht p e1 e2 [] d s2 A (sealed_typed _ _ _ _ _ En1) En2) as (s3 & e3 & E3 & Ee & _).
  unfold decrypt_row. cbn [fst snd]. rewrite E3. exists e3. split; [reflexivity|].
  destruct (apart_facts p A) as (_ & _ & _ & D1 & D2 & _). destruct En1 as (_ & H2 & _ & H4). split.
  - intros f Hf. destruct (H2 f Hf) as (c & Ec & O). exists c. rewrite Ee. destruct (in_dec string_dec f (targets p)) as [C|]; [destruct (D1 f Hf); contradiction|]. split; [exact Ec|]. apply K2. exact O.
  - intros f Hf. rewrite Ee. destruct (in_dec string_dec f (targets p)) as [C|]; [destruct (D2 f Hf C)|]. exact (H4 f Hf).
Qed.
(** The birth year is gone for good, and the name is a cipher text. *)
Example C51_retry_example :
  (exists sc r, saves toy no_draw (mk_scene mem_new [(0, mk_event true (Some birth_data) ann_birth)] [])%nat [([(0, draws)], Lost); ([(0, draws)], Fine)]%nat = (sc, [ParentFailed; SavedAll])
     /\ read_all toy no_draw (keys sc) (held sc) = ([Some r], Ended) /\ int_of r "BirthYear" = 0%Z /\ text_of r "BirthYearEncrypted" = "")
  /\ exists sc r, saves toy no_draw (mk_scene mem_new [(0, mk_event true (Some signed_up_data) ann)] [])%nat [([(0, draws)], Lost); ([(0, draws)], Fine)]%nat = (sc, [ParentFailed; SavedAll])
     /\ read_all toy no_draw (keys sc) (held sc) = ([Some r], Ended) /\ text_of r "Name" <> "Ann".
Proof. split; eexists _, _; (split; [vm_compute; reflexivity|]); (split; [vm_compute; reflexivity|]); [split; vm_compute; reflexivity|vm_compute; discriminate]. Qed.

(** So does saving an event a second time, and the caller's event itself has been
    changed by the first save. *)
Theorem C51_saved_twice_refuted : exists sc r1 r2,
  saves toy no_draw (mk_scene mem_new [(0, mk_event true (Some signed_up_data) ann)] [])%nat [([(0, draws)], Fine); ([(0, draws)], Fine)]%nat = (sc, [SavedAll; SavedAll])
  /\ read_all toy no_draw (keys sc) (held sc) = ([Some r1; Some r2], Ended) /\ r1 = ann /\ text_of r2 "Name" <> "Ann".
Proof. eexists _, _, _. split; [vm_compute; reflexivity|]. split; [vm_compute; reflexivity|]. split; [vm_compute; reflexivity|vm_compute; discriminate]. Qed.
(** A batch whose second event cannot be encrypted (no randomness for a key) saves
    nothing, but leaves the first event encrypted in the caller's hands. *)
Theorem C51_failed_batch_refuted : exists sc v,
  saves toy no_draw (mk_scene mem_new [(0, mk_event true (Some signed_up_data) ann); (1, mk_event true (Some signed_up_data) [("ID", VText "c2"); ("Name", VText "Bob"); ("Email", VText "")])] [])%nat
    [([(0, draws); (1, [])], Fine)]%nat = (sc, [NotEncrypted EndedFailed])
  /\ held sc = [] /\ event_at 0 (events sc) = Some v /\ text_of (body v) "Name" <> "Ann".
Proof. eexists _, _. split; [vm_compute; reflexivity|]. split; [reflexivity|]. split; [vm_compute; reflexivity|vm_compute; discriminate]. Qed.
(** An event passed by value is stored in the clear, whatever the encryptor. *)
Theorem C51_by_value_refuted : forall S F (srv : F -> S -> ask -> S * reply) dflt s0 p e fs,
  exists sc, saves srv dflt (mk_scene s0 [(0, mk_event false (Some p) e)] [])%nat [([(0, fs)], Fine)]%nat = (sc, [SavedAll]) /\ held sc = [(Some p, e)].
Proof. intros. eexists. split; reflexivity. Qed.
(** ... and then cannot be read. *)
Example C51_by_value_example : read_all toy no_draw (mk_mem [("c1", base64 true "thirty-two bytes make a long key")] []) [(Some signed_up_data, ann)] = ([None], EndedFailed).
Proof. vm_compute. reflexivity. Qed.
(** Record called twice on a record: the second call fails, and the reading with it. *)
Theorem C51_record_twice_refuted : exists sc,
  saves toy no_draw (mk_scene mem_new [(0, mk_event true (Some signed_up_data) ann)] [])%nat [([(0, draws)], Fine)]%nat = (sc, [SavedAll])
  /\ match held sc with [h] => record_twice toy no_draw (keys sc) h = (Some ann, None) | _ => False end.
Proof. eexists. split; [vm_compute; reflexivity|]. vm_compute. reflexivity. Qed.

(** * C77 Generated code covers every field tagged as personal data. *)

(** If each field has one name and no two fields share a target: the personal data is
    exactly that of the tagged fields, and the subject is a field tagged so. *)
Theorem C77_covers_partial : forall l p, parse_struct l = Personal p ->
  (forall f, In f l -> (length (names f) <= 1)%nat) ->
  (forall f g t u, In f l -> In g l -> tag "encrypt" f = Some "personal-data" -> tag "encrypt" g = Some "personal-data" ->
     tag "serialized" f = Some t -> tag "serialized" g = Some u -> tag_name t = tag_name u -> names f = names g) ->
  (forall name, tagged l name <-> covered p name)
  /\ exists f, In f l /\ In (subject_field p) (names f) /\ tag "encrypt" f = Some "subject-id".
Proof.
  intros l p P One Dt. unfold parse_struct in P. destruct (targets_are_strings l); [|discriminate]. cbn [negb] in P.
  destruct (String.eqb_spec (subject_field (read_fields l)) "") as [|Ns]; [discriminate|]. injection P as <-. unfold read_fields in *. split.
  - intros name. split.
    + intros (f & Hf & Hn & Te). pose proof (One f Hf) as L. destruct (names f) as [|a r] eqn:En; [contradiction|]. destruct r; [|cbn in L; lia]. destruct Hn as [->|[]].
      destruct (tag "serialized" f) as [v|] eqn:Es.
      * right. apply in_map_iff. exists (tag_name v, name). split; [reflexivity|]. apply keep_sources.
        -- intros g n Hg (r & u & E1 & E2 & E3 & E4). pose proof (Dt f g v u Hf Hg Te E2 Es E3 E4) as X. congruence.
        -- right. exists f. split; [exact Hf|]. exists [], v. auto.
      * left. apply read_texts. right. exists f. split; [exact Hf|]. exists []. auto.
    + intros [H|H].
      * apply read_texts in H. destruct H as [[]|(f & Hf & r & E1 & E2 & _)]. exists f. rewrite E1. split; [exact Hf|]. split; [left; reflexivity|exact E2].
      * apply in_map_iff in H. destruct H as ([t n] & E & H). cbn in E. subst n. apply read_sources in H. destruct H as [[]|(f & Hf & r & v & E1 & E2 & _)]. exists f. rewrite E1. split; [exact Hf|]. split; [left; reflexivity|exact E2].
  - destruct (read_subject l (mk_personal "" [] [])) as [E|(f & r & Hf & E1 & E2)]; [cbn in E; congruence|]. exists f. rewrite E1. split; [exact Hf|]. split; [left; reflexivity|exact E2].
Qed.
(** If the fields' names are different, and targets are fields without an encrypt tag,
    the methods work on different fields: the hypothesis of C51 and C52. *)
Theorem C77_apart : forall l p, parse_struct l = Personal p -> NoDup (flat_map names l) ->
  (forall f v, In f l -> tag "encrypt" f = Some "personal-data" -> tag "serialized" f = Some v ->
     In (tag_name v) (flat_map names l) /\ forall g t, In g l -> In (tag_name v) (names g) -> tag "encrypt" g <> Some t) ->
  apart p.
Proof.
  intros l p P ND H. apply (read_apart l p P ND).
  - intros f g v t Hf Hg Te Ts Hn. destruct (H f v Hf Te Ts) as [_ X]. apply X; assumption.
  - intros f v Hf Te Ts. exact (proj1 (H f v Hf Te Ts)).
Qed.
(** A target that is a field must be a string. *)
Theorem C77_targets_are_strings : forall l p f t name, parse_struct l = Personal p -> In f l -> names f = t :: name -> In t (targets p) -> typ f = "string".
Proof.
  intros l p f t name P Hf En Ht. unfold parse_struct in P. destruct (targets_are_strings l) eqn:E; [|discriminate]. cbn [negb] in P.
  destruct (String.eqb (subject_field (read_fields l)) ""); [discriminate|]. injection P as <-. unfold targets_are_strings in E. rewrite forallb_forall in E. specialize (E f Hf). rewrite En in E.
  destruct (entry t (serialized (read_fields l))) eqn:Ee; [apply String.eqb_eq; exact E|]. exfalso. unfold targets in Ht. clear -Ee Ht.
  induction (serialized (read_fields l)) as [|[a b] r IH]; [contradiction|]. cbn in *. destruct (String.eqb_spec a t) as [->|N]; [try rewrite String.eqb_refl in Ee; discriminate|].
  destruct Ht as [C|C]; [contradiction|]. apply IH; [|exact C]. destruct (String.eqb_spec t a); [congruence|exact Ee].
Qed.
(** The file is refused if one of its types has a field that is such a target and not
    a string, and for no other reason. *)
Theorem C77_refused : forall l, parse_struct l = Refused <-> bad_target l.
Proof.
  intros l. unfold parse_struct. destruct (targets_are_strings l) eqn:E; cbn [negb].
  - split; [destruct (String.eqb _ ""); discriminate|]. intros (f & g & t & r & r' & s & v & Hf & Hg & Ef & Ht & Eg & Te & Ts & Ev).
    exfalso. unfold targets_are_strings in E. rewrite forallb_forall in E. specialize (E f Hf). rewrite Ef in E.
    destruct (proj2 (read_targets l t)) as (w & Ew); [exists g, s; split; [exact Hg|]; exists r', v; auto|].
    rewrite Ew in E. apply String.eqb_eq in E. contradiction.
  - split; [intros _|reflexivity]. unfold targets_are_strings in E.
    assert (X : exists f, In f l /\ match names f with [] => true | name :: _ => match entry name (serialized (read_fields l)) with Some _ => String.eqb (typ f) "string" | None => true end end = false).
    { revert E. generalize (read_fields l) as p. intros p. clear. induction l as [|f l IH]; [discriminate|]. cbn [forallb].
      intros H. apply andb_false_iff in H as [H|H]; [exists f; split; [now left|exact H]|]. destruct (IH H) as (g & Hg & K). exists g. split; [now right|exact K]. }
    destruct X as (f & Hf & K). destruct (names f) as [|t r] eqn:Ef; [discriminate|].
    destruct (entry t (serialized (read_fields l))) as [w|] eqn:Ew; [|discriminate]. apply String.eqb_neq in K.
    destruct (proj1 (read_targets l t) (ex_intro _ w Ew)) as (g & s & Hg & r' & v & Eg & Te & Ts & ->).
    exists f, g, (tag_name v), r, r', s, v. auto 10.
Qed.
Example C77_refused_example :
  parse_struct [mk_field ["Year"] "int" (Some [("encrypt", "personal-data"); ("serialized", "Kept")]); mk_field ["Kept"] "int" None] = Refused
  /\ parse_struct [mk_field ["Year"] "int" (Some [("encrypt", "personal-data"); ("serialized", "Kept")]); mk_field [] "Base" None; mk_field ["Other"] "int" None] = Plain.
Proof. split; reflexivity. Qed.
Example C77_example :
  parse_struct added_birth = Personal birth_data /\ tagged added_birth "BirthYear" /\ ~ tagged added_birth "BirthYearEncrypted"
  /\ (forall f, In f added_birth -> (length (names f) <= 1)%nat) /\ NoDup (flat_map names added_birth)
  /\ (forall f g t u, In f added_birth -> In g added_birth -> tag "encrypt" f = Some "personal-data" -> tag "encrypt" g = Some "personal-data" ->
     tag "serialized" f = Some t -> tag "serialized" g = Some u -> tag_name t = tag_name u -> names f = names g)
  /\ (forall f v, In f added_birth -> tag "encrypt" f = Some "personal-data" -> tag "serialized" f = Some v ->
     In (tag_name v) (flat_map names added_birth) /\ forall g t, In g added_birth -> In (tag_name v) (names g) -> tag "encrypt" g <> Some t).
Proof.
  split; [reflexivity|]. split; [exists (nth 2 added_birth (mk_field [] "" None)); cbn; auto|]. split.
  - intros (f & Hf & Hn & Ht). case_in Hf; cbn in Hn, Ht; try discriminate; intuition discriminate.
  - split; [intros f Hf; case_in Hf; cbn; lia|]. split; [cbn; repeat constructor; cbn; intuition discriminate|]. split.
    + intros f g t u Hf Hg. case_in Hf; case_in Hg; cbn; intros; try reflexivity; try discriminate; repeat match goal with H : Some _ = Some _ |- _ => injection H as <- end; discriminate.
    + intros f v Hf Te Ts. case_in Hf; cbn in Te, Ts; try discriminate; injection Ts as <-; (split; [cbn; intuition|]); intros g t Hg Hn; case_in Hg; cbn in *; intuition discriminate.
Qed.

(** One tag on several names covers only the first. *)
Theorem C77_several_names_refuted : exists l p, parse_struct l = Personal p /\ tagged l "Last" /\ ~ covered p "Last".
Proof.
  exists [mk_field ["ID"] "string" (Some [("encrypt", "subject-id")]); mk_field ["First"; "Last"] "string" (Some [("encrypt", "personal-data")])].
  eexists. split; [reflexivity|]. split; [eexists; split; [right; left; reflexivity|cbn; auto]|]. intros [H|H]; cbn in H; intuition discriminate.
Qed.
(** Two numbers with the same target: one is left in the clear. *)
Theorem C77_shared_target_refuted : exists l p, parse_struct l = Personal p /\ tagged l "Month" /\ ~ covered p "Month".
Proof.
  exists [mk_field ["ID"] "string" (Some [("encrypt", "subject-id")]);
          mk_field ["Month"] "int" (Some [("encrypt", "personal-data"); ("serialized", "Secret")]); mk_field ["Year"] "int" (Some [("encrypt", "personal-data"); ("serialized", "Secret")]);
          mk_field ["Secret"] "string" None].
  eexists. split; [reflexivity|]. split; [eexists; split; [right; left; reflexivity|cbn; auto]|]. intros [H|H]; cbn in H; intuition discriminate.
Qed.
(** Without a subject no personal data is found, and nothing is reported. *)
Theorem C77_no_subject_refuted : forall l, (forall f, In f l -> tag "encrypt" f <> Some "subject-id") -> ~ bad_target l -> parse_struct l = Plain.
Proof.
  intros l H T. destruct (parse_struct l) eqn:P; [exfalso; apply T; now apply C77_refused|reflexivity|exfalso].
  unfold parse_struct in P. destruct (targets_are_strings l); [|discriminate]. cbn [negb] in P.
  destruct (read_subject l (mk_personal "" [] [])) as [E|(f & r & Hf & _ & E)]; [|destruct (H f Hf E)].
  unfold read_fields in P. rewrite E in P. discriminate.
Qed.
Example C77_no_subject_example : parse_struct [mk_field ["Name"] "string" (Some [("encrypt", "personal-data")])] = Plain.
Proof. reflexivity. Qed.

(** * C78 Deleting one subject's key does not hide the events of others. *)

(** A subscriber is given every record: in the clear, or blanked if its subject's key
    was deleted. *)
Theorem C78_subscribers : forall S F (srv : F -> S -> ask -> S * reply) opens gone d, trusty srv opens -> deletes srv gone ->
  forall s hs es, Forall2 (fun h e => held_as opens s h e \/ exists p, lost gone s h p) hs es ->
  Forall2 (fun he r => (held_as opens s (fst he) (snd he) /\ same (snd he) r) \/ (exists p, lost gone s (fst he) p /\ blanked p (snd (fst he)) r))
    (combine hs es) (accept_all srv d s hs).
Proof.
  intros S F srv opens gone d Ht Hd s hs es H. apply (accept_ok srv opens gone d s Ht Hd). eapply Forall2_weaken; [|exact H].
  intros h e [X|(p & X)]; [left; auto|right; exists p; auto].
Qed.
(** Reading gives the records before the first whose subject's key was deleted, and
    then stops: it never reaches those after it, whosever they are. *)
Theorem C78_reading_stops_refuted : forall S F (srv : F -> S -> ask -> S * reply) opens gone d, trusty srv opens -> deletes srv gone ->
  forall s pre es h p rest, Forall2 (held_as opens s) pre es -> lost gone s h p ->
  exists got, read_all srv d s (pre ++ h :: rest) = ((got ++ [None])%list, EndedDeleted) /\ Forall2 (fun g e => exists r, g = Some r /\ same e r) got es.
Proof.
  intros S F srv opens gone d Ht Hd s pre. revert s. induction pre as [|[k r] pre IH]; intros s es h p rest H L.
  - inversion H; subst. exists []. split; [|constructor]. destruct h as [k r]. destruct L as (Ek & A & N & G). cbn in Ek. subst k. cbn [app read_all]. unfold decrypt_row. cbn [fst snd] in *.
    destruct (decrypt_gone srv gone p r [] d s Hd N G) as [E _]. destruct (finish srv [] d s (gen_decrypt p r)) as [s' [r1 e1]]. cbn in E. injection E as -> ->. reflexivity.
  - inversion H as [|? e ? es' Hr H']; subst. cbn [app read_all]. unfold decrypt_row. cbn [fst snd]. unfold held_as in Hr. cbn [fst snd] in Hr. destruct k as [q|].
    + destruct Hr as (A & T & C & En). destruct (decrypt_ok srv opens Ht q e r [] d s A T En) as (s' & e2 & E & Ee & Gr). rewrite E.
      destruct (IH s' es' h p rest) as (got & Eg & Fg).
      * eapply Forall2_weaken; [|exact H']. intros h0 e0. apply readable_keep. exact Gr.
      * destruct L as (Y1 & Y2 & Y3 & Y4). split; [exact Y1|]. split; [exact Y2|]. split; [exact Y3|]. change s' with (fst (s', (Ended, e2))). rewrite <- E. unfold gen_decrypt. apply finish_gone; assumption.
      * rewrite Eg. exists (Some e2 :: got). split; [reflexivity|]. constructor; [|exact Fg]. exists e2. split; [reflexivity|]. intros f. rewrite Ee.
        destruct (in_dec string_dec f (targets q)) as [Hi|]; [exact (C f Hi)|reflexivity].
    + destruct (IH s es' h p rest H' L) as (got & Eg & Fg). rewrite Eg. exists (Some r :: got). split; [reflexivity|]. constructor; [exists r; auto|exact Fg].
Qed.
(** Bob's record comes after Ann's; once Ann's key is deleted, reading stops before it,
    while a subscriber is given both. *)
Definition bob : row := [("ID", VText "c2"); ("Name", VText "Bob"); ("Email", VText "bob@example.com"); ("Status", VText "active")].
Example C78_example : exists sc,
  saves toy no_draw (mk_scene mem_new [(0, mk_event true (Some signed_up_data) ann); (1, mk_event true (Some signed_up_data) bob)] [])%nat [([(0, draws); (1, other_draws)], Fine)]%nat = (sc, [SavedAll])
  /\ read_all toy no_draw (keys sc) (held sc) = ([Some ann; Some bob], Ended)
  /\ read_all toy no_draw (engine_after toy_enc toy_dec (keys sc) [Deleting "c1"]) (held sc) = ([None], EndedDeleted)
  /\ map (fun e => (text_of e "Name", text_of e "Status")) (accept_all toy no_draw (engine_after toy_enc toy_dec (keys sc) [Deleting "c1"]) (held sc)) = [("", "active"); ("Bob", "active")].
Proof. eexists. split; [vm_compute; reflexivity|]. repeat split; vm_compute; reflexivity. Qed.

Print Assumptions C52_round_trip_partial.
Print Assumptions C52_memory_partial.
Print Assumptions C52_deleted.
Print Assumptions C52_failure_leaves_event.
Print Assumptions C52_preset_target_refuted.
Print Assumptions C51_read_back_partial.
Print Assumptions C51_retry_refuted.
Print Assumptions C51_saved_twice_refuted.
Print Assumptions C51_failed_batch_refuted.
Print Assumptions C51_by_value_refuted.
Print Assumptions C51_record_twice_refuted.
Print Assumptions C77_covers_partial.
Print Assumptions C77_apart.
Print Assumptions C77_targets_are_strings.
Print Assumptions C77_refused.
Print Assumptions C77_several_names_refuted.
Print Assumptions C77_shared_target_refuted.
Print Assumptions C77_no_subject_refuted.
Print Assumptions C78_subscribers.
Print Assumptions C78_reading_stops_refuted.
