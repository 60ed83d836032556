(** The store behind gRPC: C34-C37, C70-C72. *)
From Coq Require Import ZArith.
From Verif Require Import Base Core CoreSpec LogSpec StoreSpec ToyCodec InMemory LevelDB LevelDBSpec Properties_LevelDB DecText Text
  Remote RemoteSpec RemoteProofs Json JsonSpec JsonProofs.
Open Scope string_scope.
Open Scope list_scope.
Open Scope N_scope.

(** ** C34 *)

(** C34: the numbers of a conflict survive being printed, put behind any text that
    does not hold the marker earlier, and parsed again. *)
Theorem C34_numbers_survive_any_prefix : forall pre e a, e < 2 ^ 64 -> a < 2 ^ 64 -> first_at_end pre ->
  unexpected_from (pre ++ unexpected_text e a) = (e, a).
Proof. intros pre e a He Ha Hp. now apply conflict_round_trip. Qed.
Print Assumptions C34_numbers_survive_any_prefix.

Example C34_prefix_inhabited : first_at_end "rpc error: code = Unknown desc = "
  /\ unexpected_from "rpc error: code = Unknown desc = unexpected sequence number: 18446744073709551615, actual: 7"
     = (18446744073709551615, 7).
Proof. split; [exact first_plain|vm_compute; reflexivity]. Qed.

(** C34: whatever store the server has: when it refuses an optimistic save or a
    delete because of the sequence number, the client's caller gets that very error. *)
Theorem C34_conflict_reported : forall detail wire unwire St (store : St -> op -> St * out) marshal unmarshal s s' e a,
  e < 2 ^ 64 -> a < 2 ^ 64 ->
  (forall x st evs vs ps, evs <> [] -> pack marshal "" "" evs = inr ps -> unpack unmarshal ps = inr vs ->
     store s (OpSave (Some x) st vs None) = (s', OutFailed (EUnexpectedSeq e a)) ->
     remote_step detail wire unwire St store marshal unmarshal s (OpSave (Some x) st evs None)
     = (s', CFailed (CErr (EUnexpectedSeq e a))))
  /\ (forall x st, store s (OpDelete x st None) = (s', OutFailed (EUnexpectedSeq e a)) ->
     remote_step detail wire unwire St store marshal unmarshal s (OpDelete x st None)
     = (s', CFailed (CErr (EUnexpectedSeq e a)))).
Proof.
  intros detail wire unwire St store marshal unmarshal s s' e a He Ha. split.
  - intros x st evs vs ps Hne Hp Hu E. cbn [remote_step]. destruct evs as [|e0 evs]; [congruence|].
    rewrite Hp. cbn [done_at]. rewrite Hu, E. now rewrite save_conflict.
  - intros x st E. cbn [remote_step done_at]. rewrite E. now rewrite delete_conflict.
Qed.
Print Assumptions C34_conflict_reported.

Definition thing (d : string) : event := mk_event "thing" "x" "E" d "" "u" 7.
Definition same {A} (x : A) : string + A := inr x.
Definition quiet_text (e : err) : string := "some error".
Definition rmem (m : mem) (o : op) : mem * cout := remote_step quiet_text same same mem (mem_step toy) same same m o.

Example C34_reported_inhabited :
  snd (rmem mem_init (OpSave (Some 3) "thing!x" [thing "a"] None)) = CFailed (CErr (EUnexpectedSeq 3 0))
  /\ snd (rmem (fst (rmem mem_init (OpSave None "thing!x" [thing "a"] None))) (OpDelete 5 "thing!x" None))
     = CFailed (CErr (EUnexpectedSeq 5 1)).
Proof. split; vm_compute; reflexivity. Qed.

Lemma classify (e : err) : (exists p q, e = EUnexpectedSeq p q) \/ forall p q, e <> EUnexpectedSeq p q.
Proof. destruct e; eauto; right; discriminate. Qed.
Lemma pack_no_conflict marshal evs : forall t i er, pack marshal t i evs = inl er -> forall p q, er <> CErr (EUnexpectedSeq p q).
Proof.
  induction evs as [|e evs IH]; intros t i er H; cbn [pack] in H; [discriminate|].
  destruct (_ && _); [injection H as <-; discriminate|]. destruct (_ && _); [injection H as <-; discriminate|].
  destruct (marshal e); [injection H as <-; discriminate|].
  destruct (pack marshal (ev_atype e) (ev_aid e) evs) eqn:E; [|discriminate]. injection H as <-. eauto.
Qed.

(** C34: and such an error is reported only if the store reported it - as long as no
    other error's text holds the words "unexpected sequence number". *)
Theorem C34_only_conflicts_partial : forall detail wire unwire St (store : St -> op -> St * out) marshal unmarshal s s' e a,
  (forall er, contains "unexpected sequence number" (detail er) = false) -> faithful unmarshal ->
  (forall o p q, snd (store s o) = OutFailed (EUnexpectedSeq p q) -> p < 2 ^ 64 /\ q < 2 ^ 64) ->
  (forall x st evs,
     remote_step detail wire unwire St store marshal unmarshal s (OpSave (Some x) st evs None)
       = (s', CFailed (CErr (EUnexpectedSeq e a))) ->
     exists vs, store s (OpSave (Some x) st vs None) = (s', OutFailed (EUnexpectedSeq e a)))
  /\ (forall x st,
     remote_step detail wire unwire St store marshal unmarshal s (OpDelete x st None)
       = (s', CFailed (CErr (EUnexpectedSeq e a))) ->
     store s (OpDelete x st None) = (s', OutFailed (EUnexpectedSeq e a))).
Proof.
  intros detail wire unwire St store marshal unmarshal s s' e a Hd Hu Hb. split.
  - intros x st evs H. cbn [remote_step] in H.
  destruct evs as [|e0 evs]; [discriminate|].
  destruct (pack marshal "" "" (e0 :: evs)) as [er|ps] eqn:Ep.
    { exfalso. injection H as _ H. now destruct (pack_no_conflict _ _ _ _ _ Ep e a). }
    cbn [done_at] in H. rewrite unpack_faithful in H by exact Hu.
    exists ps. destruct (store s (OpSave (Some x) st ps None)) as [s1 y] eqn:Es. injection H as <- H.
    destruct y; try discriminate. f_equal. f_equal. injection H as H.
    specialize (Hb (OpSave (Some x) st ps None)). rewrite Es in Hb. cbn in Hb.
    destruct (classify e1) as [(p & q & ->)|Hn].
    + destruct (Hb _ _ eq_refl) as [B1 B2]. rewrite save_conflict in H by assumption. congruence.
    + exfalso. revert H. apply optimistic_quiet, foreign_quiet; assumption.
  - intros x st H. cbn [remote_step done_at] in H.
    destruct (store s (OpDelete x st None)) as [s1 y] eqn:Es. injection H as <- H.
    destruct y; try discriminate. f_equal. f_equal. injection H as H.
    specialize (Hb (OpDelete x st None)). rewrite Es in Hb. cbn [snd] in Hb.
    destruct (classify e0) as [(p & q & ->)|Hn].
    + destruct (Hb _ _ eq_refl) as [B1 B2]. rewrite delete_conflict in H by assumption. congruence.
    + exfalso. revert H. apply delete_quiet, foreign_quiet; assumption.
Qed.
Print Assumptions C34_only_conflicts_partial.

(** C34 refuted: an error of the server's store that merely mentions the words is
    turned into a conflict between 0 and 0. *)
Theorem C34_foreign_text_refuted : exists detail m',
  remote_step detail same same mem (mem_step picky) same same mem_init (OpSave (Some 0) "thing!x" [thing "unencodable"] None)
    = (m', CFailed (CErr (EUnexpectedSeq 0 0)))
  /\ snd (mem_step picky mem_init (OpSave (Some 0) "thing!x" [thing "unencodable"] None)) = OutFailed ESerialize.
Proof.
  exists (fun _ => "field ""unexpected sequence number"" cannot be encoded"). eexists.
  split; [vm_compute; reflexivity|vm_compute; reflexivity].
Qed.
Print Assumptions C34_foreign_text_refuted.

(** ** C35 *)

(** C35, reads of one stream: if the store's read fails after some records, the
    client gets those records and then an error - "stream not found" exactly if the
    store said so (provided other error texts do not hold these words). *)
Theorem C35_stream_read_error_arrives_partial : forall detail wire unwire St (store : St -> op -> St * out) marshal unmarshal s s' k st rs e l,
  (forall r, In r rs -> exists p, wire r = inr p /\ unwire p = inr r) ->
  (forall er, contains "stream not found" (detail er) = false) ->
  store s (OpByStream k st) = (s', OutResults (map RRec rs ++ RErr e :: l)) ->
  exists x, remote_step detail wire unwire St store marshal unmarshal s (OpByStream k st)
    = (s', CResults (map inl rs ++ [inr x]))
  /\ (e = EStreamNotFound <-> x = CErr EStreamNotFound).
Proof.
  intros detail wire unwire St store marshal unmarshal s s' k st rs e l Hw Hd E. cbn [remote_step]. rewrite E.
  assert (Hb : before_error (map RRec rs ++ RErr e :: l) = rs) by (clear; induction rs; cbn; congruence).
  assert (Hf : first_error (map RRec rs ++ RErr e :: l) = Some e) by (clear; induction rs; cbn; auto).
  eexists. rewrite client_reads by now rewrite Hb. rewrite Hb, Hf. split; [reflexivity|].
  split; [intros ->; vm_compute; reflexivity|now apply read_not_found].
Qed.
Print Assumptions C35_stream_read_error_arrives_partial.

Example C35_stream_inhabited : snd (rmem mem_init (OpByStream 0 "nowhere")) = CResults [inr (CErr EStreamNotFound)].
Proof. vm_compute. reflexivity. Qed.

(** C35 refuted for the other two reads, always: after any number of records an
    error of the store's read looks to the client like the end of the events. *)
Theorem C35_read_errors_swallowed_refuted : forall detail wire unwire St (store : St -> op -> St * out) marshal unmarshal s s' o rs e l,
  (match o with OpEvents _ | OpByTypes _ _ => True | _ => False end) ->
  (forall r, In r rs -> exists p, wire r = inr p /\ unwire p = inr r) ->
  store s o = (s', OutResults (map RRec rs ++ RErr e :: l)) ->
  remote_step detail wire unwire St store marshal unmarshal s o = (s', CResults (map inl rs)).
Proof.
  intros detail wire unwire St store marshal unmarshal s s' o rs e l Ho Hw E.
  assert (Hb : before_error (map RRec rs ++ RErr e :: l) = rs) by (clear; induction rs; cbn; congruence).
  destruct o; try contradiction; cbn [remote_step]; rewrite E, client_reads by (now rewrite Hb); now rewrite Hb, app_nil_r.
Qed.
Print Assumptions C35_read_errors_swallowed_refuted.

(** A store whose second record cannot be decoded: the direct reader is told, the
    remote reader is not. *)
Definition amnesic : codec :=
  mk_codec (fun r => Some (enc_record r)) (fun b => match dec_record b with
    | Some r => if String.eqb (r_data r) "null" then None else Some r | None => None end).
Definition amnesic_step (m : mem) (o : op) : mem * cout :=
  remote_step quiet_text same same mem (mem_step amnesic) same same m o.
Definition poisoned : mem := fst (run (mem_step amnesic) mem_init
  [OpSave None "thing!x" [thing "a"] None; OpSave None "thing!x" [thing "null"] None; OpSave None "thing!x" [thing "b"] None]).

Example C35_swallowed_inhabited : exists r,
  snd (mem_step amnesic poisoned (OpEvents 0)) = OutResults [RRec r; RErr EDeserialize]
  /\ snd (amnesic_step poisoned (OpEvents 0)) = CResults [inl r]
  /\ snd (amnesic_step poisoned (OpByTypes 0 ["thing"])) = CResults [inl r]
  /\ snd (amnesic_step poisoned (OpByStream 0 "thing!x"))
     = CResults [inl r; inr (CText "rpc error: code = Unknown desc = some error")].
Proof. eexists. split; [vm_compute; reflexivity|]. split; [vm_compute; reflexivity|]. split; vm_compute; reflexivity. Qed.

(** ** C36 *)

(** C36, every integer: wherever it stands in the data of an event, the client gets
    in its place the number Go prints for the nearest float64. *)
Theorem C36_integers_pass_through_float64 : forall of_lit show j path z back,
  at_ path j = Some (JNum (Int z)) ->
  data_back of_lit show j = Some back ->
  at_ path back = Some (JNum (show (FInt (f64 z)))).
Proof.
  intros of_lit show j path z back H Hb. unfold data_back, load_data in Hb.
  assert (Hb' : encode show (decode of_lit true (stored_text of_lit show j)) = back) by (destruct (stored_text of_lit show j); congruence).
  subst back. apply (decode_at of_lit false) in H. apply (encode_find show) in H. fold (received_value of_lit j) in H. fold (stored_text of_lit show j) in H.
  cbn [decode encode float_of] in H. apply (decode_at of_lit true) in H. apply (encode_find show) in H. exact H.
Qed.
Print Assumptions C36_integers_pass_through_float64.

(** C36: integers below 2^53 in absolute value are read back unchanged. *)
Theorem C36_small_integers_survive_partial : forall of_lit show j path z back,
  prints_back of_lit show -> prints_integers show -> (Z.abs z < 2 ^ 53)%Z ->
  at_ path j = Some (JNum (Int z)) -> data_back of_lit show j = Some back ->
  at_ path back = Some (JNum (Int z)).
Proof.
  intros of_lit show j path z back Hp Hi Hz Hat Hb.
  rewrite (C36_integers_pass_through_float64 _ _ _ _ _ _ Hat Hb). rewrite f64_small by exact Hz.
  destruct (Hi z) as (p & E); [eapply Z.lt_trans; [exact Hz|reflexivity]|].
  assert (Hf : float_of of_lit (show (FInt z)) = FInt z) by (apply Hp; exists (Int z); cbn; now rewrite f64_small).
  rewrite E in *. cbn in Hf. injection Hf as Hf. now rewrite (f64_inv z p Hz Hf).
Qed.
Print Assumptions C36_small_integers_survive_partial.

(** C36 refuted, however floats are printed: an integer that is not exactly a
    float64, and the float64 it is rounded to, come back as the same number, so at
    least one of the two is changed. *)
Theorem C36_large_integers_collide_refuted : forall of_lit show j j' path z back back',
  at_ path j = Some (JNum (Int z)) -> at_ path j' = Some (JNum (Int (f64 z))) -> f64 z <> z ->
  data_back of_lit show j = Some back -> data_back of_lit show j' = Some back' ->
  at_ path back = at_ path back' /\
  (at_ path back <> Some (JNum (Int z)) \/ at_ path back' <> Some (JNum (Int (f64 z)))).
Proof.
  intros of_lit show j j' path z back back' H H' Hz Hb Hb'.
  rewrite (C36_integers_pass_through_float64 _ _ _ _ _ _ H Hb).
  rewrite (C36_integers_pass_through_float64 _ _ _ _ _ _ H' Hb'). rewrite f64_idem. split; [reflexivity|].
  destruct (show (FInt (f64 z))) as [p|l] eqn:E; [|left; discriminate].
  destruct (Z.eq_dec p z) as [->|Hp]; [right; congruence|left; congruence].
Qed.
Print Assumptions C36_large_integers_collide_refuted.

(** Shortest decimal that reads back as the same float, for integral floats below
    1e21 (strconv.FormatFloat(f, 'f', -1, 64)). *)
Definition round_to (u z : Z) : Z := ((2 * Z.abs z + u) / (2 * u) * u * Z.sgn z)%Z.
Fixpoint shortest (n : nat) (u z : Z) : Z :=
  match n with
  | O => z
  | S k => if Z.eqb (f64 (round_to u z)) z then round_to u z else shortest k (u / 10) z
  end.
Definition show_int (f : float) : num :=
  match f with FInt z => Int (shortest 19 (10 ^ 18) z) | FOther s => Lit s end.
Definition lit_other (s : string) : float := FOther s.
Lemma shortest_back n u z : f64 z = z -> f64 (shortest n u z) = z.
Proof. revert u. induction n as [|n IH]; intros u H; cbn [shortest]; [exact H|]. destruct (Z.eqb_spec (f64 (round_to u z)) z); auto. Qed.
Example C36_laws_inhabited : prints_back lit_other show_int /\ prints_integers show_int.
Proof.
  split.
  - intros f [n <-]. destruct n as [z|s]; [|reflexivity].
    change (FInt (f64 (shortest 19 (10 ^ 18) (f64 z))) = FInt (f64 z)). f_equal. apply shortest_back. apply f64_idem.
  - intros z _. exists (shortest 19 (10 ^ 18) z). reflexivity.
Qed.
Example C36_number_changed :
  data_back lit_other show_int (JObj [("id", JStr "a"); ("n", JNum (Int 9007199254740993))])
  = Some (JObj [("id", JStr "a"); ("n", JNum (Int 9007199254740992))])
  /\ data_back lit_other show_int (JObj [("n", JNum (Int 9223372036854775807))]) = Some (JObj [("n", JNum (Int 9223372036854776000))])
  /\ as_int64 (Int 9223372036854775807) = Some 9223372036854775807%Z
  /\ as_int64 (Int 9223372036854775808) = None /\ as_int64 (Int (-9223372036854775808)) = Some (-9223372036854775808)%Z
  /\ as_int64 (Int 9223372036854776000) = None.
Proof. repeat split; vm_compute; reflexivity. Qed.
Example C36_small_inhabited :
  at_ [Member "n"; Elem 1] (JObj [("n", JArr [JNull; JNum (Int (-42))])]) = Some (JNum (Int (-42)))
  /\ data_back lit_other show_int (JObj [("n", JArr [JNull; JNum (Int (-42))])]) = Some (JObj [("n", JArr [JNull; JNum (Int (-42))])]).
Proof. split; vm_compute; reflexivity. Qed.

(** ** C37 *)

(** C37: a record whose data came out of a JSON decoder that keeps numbers as text,
    and whose metadata came out of one that does not, survives the translation to
    protocol buffers and back with every field. *)
Theorem C37_protobuf_round_trip_partial : forall of_lit show r, prints_back of_lit show ->
  value_of of_lit true (g_data r) -> value_of of_lit false (g_meta r) ->
  of_pb of_lit (to_pb show r) = r.
Proof.
  intros of_lit show [h d m] Hp Hd Hm. unfold of_pb, to_pb. cbn in *.
  rewrite (decode_encode of_lit show true) by (auto; discriminate).
  f_equal. transitivity (decode of_lit false (encode show m)); [destruct (encode show m); reflexivity|].
  apply decode_encode; auto.
Qed.
Print Assumptions C37_protobuf_round_trip_partial.

Definition head : record := mk_record "s" "t" "i" 5 2 7 "u" "E" "" "".
Example C37_inhabited :
  value_of lit_other true (GMap [("a", GNumber (Int 9007199254740993)); ("b", GSlice [GNil; GBool true])])
  /\ value_of lit_other false (GMap [("n", GFloat (FInt 3))]).
Proof.
  split; (apply VMap; [repeat split|]); intros k x [E|[E|[]]] || intros k x [E|[]]; injection E as <- <-.
  - now constructor.
  - constructor. intros x [<-|[<-|[]]]; constructor.
  - constructor; [reflexivity|]. exists (Int 3). reflexivity.
Qed.

(** C37 refuted: records read from a store that keeps JSON have metadata with
    json.Number values, which come back as float64 - every number in the metadata
    changes its type, and large ones their value. *)
Theorem C37_metadata_numbers_refuted : forall of_lit show r path n,
  find path (g_meta r) = Some (GNumber n) ->
  find path (g_meta (of_pb of_lit (to_pb show r))) = Some (GFloat (float_of of_lit n))
  /\ of_pb of_lit (to_pb show r) <> r.
Proof.
  intros of_lit show [h d m] path n H. cbn in H.
  assert (E : find path (g_meta (of_pb of_lit (to_pb show (mk_grecord h d m)))) = Some (GFloat (float_of of_lit n))).
  { unfold of_pb, to_pb. cbn [g_meta g_data g_head pb_meta].
    transitivity (find path (decode of_lit false (encode show m))); [cbn; destruct (encode show m); reflexivity|].
    apply (encode_find show) in H. apply (decode_at of_lit false) in H. exact H. }
  split; [exact E|]. intros Heq. rewrite Heq in E. cbn in E. congruence.
Qed.
Print Assumptions C37_metadata_numbers_refuted.

Theorem C37_metadata_values_collide_refuted : exists r r', r <> r'
  /\ value_of lit_other true (g_meta r) /\ value_of lit_other true (g_meta r')
  /\ of_pb lit_other (to_pb show_int r) = of_pb lit_other (to_pb show_int r').
Proof.
  exists (mk_grecord head GNil (GNumber (Int 9007199254740993))), (mk_grecord head GNil (GNumber (Int 9007199254740992))).
  split; [discriminate|]. repeat split; constructor; reflexivity.
Qed.
Print Assumptions C37_metadata_values_collide_refuted.

(** ** C70 *)

(** C70: as long as every record that arrives can be translated, the remote store
    announces all of them to its subscribers, in order. *)
Theorem C70_live_feed_partial : forall unwire ps rs,
  Forall2 (fun p r => unwire p = inr r) ps rs -> live_feed unwire ps = rs.
Proof.
  intros unwire ps rs F. unfold live_feed. induction F as [|p r ps rs E F IH]; cbn [receive relayed_live]; [reflexivity|].
  rewrite E. cbn [relayed_live]. now f_equal.
Qed.
Print Assumptions C70_live_feed_partial.

(** C70 refuted, always: after one record the client cannot decode, its subscribers
    hear of nothing any more. *)
Theorem C70_live_feed_dies_refuted : forall unwire ps rs p t later,
  Forall2 (fun p r => unwire p = inr r) ps rs -> unwire p = inl t ->
  live_feed unwire (ps ++ p :: later) = rs.
Proof.
  intros unwire ps rs p t later F E. unfold live_feed.
  induction F as [|q r ps rs Eq F IH]; cbn [app receive relayed_live].
  - rewrite E. reflexivity.
  - rewrite Eq. cbn [relayed_live]. now f_equal.
Qed.
Print Assumptions C70_live_feed_dies_refuted.

Example C70_inhabited : let bad := fun p => if String.eqb (r_data p) "7" then inl "type error" else inr p in
  let r d := mk_record "s" "t" "i" 1 1 7 "u" "E" d "" in
  live_feed bad [r "a"; r "7"; r "b"; r "c"] = [r "a"].
Proof. reflexivity. Qed.

(** ** C71 *)

Lemma mem_fits c m o : fits o (snd (mem_step c m o)).
Proof.
  destruct o as [ex s evs cn|ex s cn|g|g ts|k s|s cn]; cbn [mem_step].
  - destruct evs as [|e evs]; [exact Logic.I|]. destruct (m_locked m); [exact Logic.I|].
    unfold mem_save. destruct (mem_save_loop _ _ _ _ _ _ _ _ _ _ _ _) as [m1 [l p|e'|]]; exact Logic.I.
  - destruct (done_at cn 0) eqn:Ed; [exact Logic.I|]. destruct (m_locked m); [exact Logic.I|]. unfold mem_delete. rewrite Ed.
    destruct (m_streams m s); [|exact Logic.I]. destruct (negb _); [exact Logic.I|]. destruct (delete_loop _ _); exact Logic.I.
  - destruct (m_locked m); exact Logic.I.
  - destruct (_ && _); [exact Logic.I|]. destruct (mem_by_types _ _ _ _); exact Logic.I.
  - destruct (m_locked m); exact Logic.I.
  - destruct (done_at cn 0); [exact Logic.I|]. destruct (m_locked m); [exact Logic.I|]. unfold mem_total. destruct (done_at _ _); exact Logic.I.
Qed.

Lemma mem_answers c : answers (mem_step c).
Proof. split; [apply mem_fits|reflexivity]. Qed.

Lemma ldb_answers c : answers (ldb_step c).
Proof.
  split; [|reflexivity]. intros s o. unfold ldb_step.
  assert (He : forall x, early o = Some x -> fits o x).
  { destruct o as [ex st [|e evs] cn|ex st cn|g|g ts|k st|st cn]; cbn [early]; intros x H; try discriminate; try (injection H as <-; exact Logic.I);
      destruct (done_at cn 0); try discriminate; injection H as <-; exact Logic.I. }
  assert (Hb : fits o OutBlocked) by (destruct o; exact Logic.I).
  destruct (early o) as [x|] eqn:E; [now apply He|].
  destruct (s_stuck s && takes_mux o); [exact Hb|].
  destruct (opens_transaction o && match h_tx (s_h s) with Some _ => true | None => false end); [exact Hb|].
  destruct (ldb_call c (h_db (s_h s)) o) as [ms x] eqn:Ec. cbn [snd].
  destruct o as [ex st evs cn|ex st cn|g|g ts|k st|st cn]; cbn [ldb_call] in Ec.
  - unfold ldb_save in Ec. destruct (ldb_save_loop _ _ _ _ _ _ _ _ _ _ _) as [ms' [e|[l pend]]]; injection Ec as _ <-; exact Logic.I.
  - unfold ldb_delete in Ec. destruct (delete_batch _ _); [injection Ec as _ <-; exact Logic.I|].
    destruct (_ =? 0); [injection Ec as _ <-; exact Logic.I|]. destruct (negb _); injection Ec as _ <-; exact Logic.I.
  - injection Ec as _ <-. exact Logic.I.
  - destruct (ldb_by_types _ _ _ _); injection Ec as _ <-; exact Logic.I.
  - injection Ec as _ <-. exact Logic.I.
  - injection Ec as _ <-. exact Logic.I.
Qed.

(** C71: for any history of calls from any state of any store, the caller of a remote
    store is told the same as a caller of that store itself - when JSON loses nothing,
    batches are of one aggregate and nothing is cancelled.  (Error texts aside; of
    reads that fail the part before the failure, see C35.) *)
Theorem C71_remote_store_transparent_partial : forall detail wire unwire St (store : St -> op -> St * out) marshal unmarshal s ops,
  answers store -> faithful wire -> faithful unwire -> faithful marshal -> faithful unmarshal ->
  Forall plain_call ops ->
  let near := run store s ops in
  let far := remote_run (remote_step detail wire unwire St store marshal unmarshal) s ops in
  fst far = fst near
  /\ Forall2 (fun o xy => told_the_same o (fst xy) (snd xy)) ops (combine (snd near) (snd far))
  /\ length (snd far) = length ops /\ length (snd near) = length ops.
Proof.
  intros detail wire unwire St store marshal unmarshal s ops Ha Hw Hu Hm Hum Hf. cbn zeta.
  revert s. induction Hf as [|o ops Ho Hf IH]; intros s; cbn [run remote_run]; [repeat split; constructor|].
  destruct (step_same detail wire unwire St store marshal unmarshal s o Hw Hu Hm Hum Ho Ha) as [E1 E2].
  destruct (store s o) as [s1 x]. destruct (remote_step _ _ _ _ _ _ _ s o) as [s2 y]. cbn [fst snd] in *. subst s2.
  specialize (IH s1). destruct (run _ s1 ops), (remote_run _ s1 ops). cbn [fst snd combine length] in *.
  destruct IH as (I1 & I2 & I3 & I4). split; [exact I1|]. split; [now constructor|]. split; congruence.
Qed.
Print Assumptions C71_remote_store_transparent_partial.

(** C71: hence the caller of a remote store in front of a LevelDB store is told what
    a plain list of records would answer (names without the byte pair of C16, and as
    long as no delete was refused, see C18). *)
Theorem C71_remote_leveldb_as_log_partial : forall c detail wire unwire marshal unmarshal ops,
  codec_ok c -> faithful wire -> faithful unwire -> faithful marshal -> faithful unmarshal ->
  Forall plain_call ops -> Forall clean_call ops -> events_in ops < two64 ->
  no_refused_delete ops (ldb_outs c ops) ->
  Forall2 (fun o xy => told_the_same o (fst xy) (snd xy)) ops
    (combine (snd (run (log_exec c) empty_log ops))
             (snd (remote_run (remote_step detail wire unwire ldb (ldb_step c) marshal unmarshal) ldb_init ops))).
Proof.
  intros c detail wire unwire marshal unmarshal ops Hc Hw Hu Hm Hum Hp Hcl Hsm Hr.
  rewrite <- (C16_leveldb_answers_as_log_partial c ops Hc Hcl Hsm Hr).
  apply (C71_remote_store_transparent_partial detail wire unwire ldb (ldb_step c) marshal unmarshal ldb_init ops (ldb_answers c) Hw Hu Hm Hum Hp).
Qed.
Print Assumptions C71_remote_leveldb_as_log_partial.

(** The stores that stand for all: both answer every call. *)
Example C71_stores_inhabited : answers (mem_step toy) /\ answers (ldb_step toy) /\ codec_ok toy.
Proof. split; [apply mem_answers|split; [apply ldb_answers|apply toy_ok]]. Qed.

Definition remote_demo : list op :=
  [OpSave None "thing!x" [thing "a"; thing "b"] None; OpSave (Some 7) "thing!x" [thing "z"] None; OpByTypes 0 ["thing"]; OpDelete 2 "thing!x" None;
   OpTotal "thing!x" None; OpByStream 0 "thing!x"; OpEvents 0].
Example C71_leveldb_inhabited :
  Forall plain_call remote_demo /\ Forall clean_call remote_demo /\ no_refused_delete remote_demo (ldb_outs toy remote_demo)
  /\ exists r1 r2, snd (remote_run (remote_step quiet_text same same ldb (ldb_step toy) same same) ldb_init remote_demo)
  = [CSaved 2; CFailed (CErr (EUnexpectedSeq 7 2)); CResults [inl r1; inl r2]; CDeleted; CTotal 0;
     CResults [inr (CErr EStreamNotFound)]; CResults []].
Proof.
  assert (A : clean "thing!x") by (apply (clean_by_check _ 7); vm_compute; auto).
  assert (C : clean "thing") by (apply (clean_by_check _ 5); vm_compute; auto).
  assert (O1 : one_aggregate [thing "z"]) by (intros x y [<-|[]] [<-|[]]; auto).
  assert (O2 : one_aggregate [thing "a"; thing "b"]) by (intros x y [<-|[<-|[]]] [<-|[<-|[]]]; cbn; auto).
  split; [repeat apply Forall_cons; try apply Forall_nil; cbn; auto|].
  split.
  { repeat apply Forall_cons; try apply Forall_nil; cbn; repeat split; auto;
    try (repeat apply Forall_cons; auto; fail); try discriminate; try (repeat constructor; cbn; intuition discriminate). }
  split; [vm_compute; intuition discriminate|].
  eexists _, _. vm_compute. reflexivity.
Qed.

Example C71_inhabited : exists r1 r2,
  snd (remote_run rmem mem_init
    [OpSave None "thing!x" [thing "a"; thing "b"] None; OpEvents 2; OpDelete 2 "thing!x" None; OpTotal "thing!x" None; OpByTypes 0 ["thing"];
     OpSave (Some 0) "thing!x" [thing "c"] None; OpByStream 0 "thing!x"])
  = [CSaved 2; CResults [inl r1]; CDeleted; CTotal 0; CResults []; CSaved 1; CResults [inl r2]] /\ r_gsn r1 = 2 /\ r_gsn r2 = 3.
Proof. eexists _, _. split; [vm_compute; reflexivity|]. split; reflexivity. Qed.

(** C71: a batch of several aggregates never reaches the server. *)
Theorem C71_mixed_batch_never_sent : forall detail wire unwire St (store : St -> op -> St * out) marshal unmarshal s ex st evs cn,
  aggregate_named evs -> ~ one_aggregate evs ->
  exists x, remote_step detail wire unwire St store marshal unmarshal s (OpSave ex st evs cn) = (s, CFailed x).
Proof.
  intros detail wire unwire St store marshal unmarshal s ex st evs cn Hn Ho. cbn [remote_step].
  destruct evs as [|e evs]; [eauto|]. destruct (pack marshal "" "" (e :: evs)) eqn:E; [eauto|].
  exfalso. apply Ho. eapply pack_aggregate; eauto.
Qed.
Print Assumptions C71_mixed_batch_never_sent.

Example C71_mixed_inhabited : let b := [thing "a"; mk_event "other" "y" "E" "b" "" "u" 7] in
  aggregate_named b /\ ~ one_aggregate b
  /\ rmem mem_init (OpSave None "s" b None) = (mem_init, CFailed (CErr EUnmatchedType)).
Proof.
  split; [intros e [<-|[<-|[]]]; split; discriminate|]. split; [|vm_compute; reflexivity].
  intros H. specialize (H _ _ (or_introl eq_refl) (or_intror (or_introl eq_refl))). cbn in H. destruct H. discriminate.
Qed.

(** ** C72 *)

(** C72: data that is not null can be read back by the server. *)
Theorem C72_data_readable_partial : forall of_lit show j, j <> JNull -> data_back of_lit show j <> None.
Proof. intros of_lit show j H. destruct j; try congruence; cbn; discriminate. Qed.
Print Assumptions C72_data_readable_partial.

Example C72_inhabited : JObj [("a", JNull)] <> JNull
  /\ data_back lit_other show_int (JObj [("a", JNull); ("b", JArr [JStr "x"; JBool true])]) <> None.
Proof. split; discriminate. Qed.

(** C72 refuted: an event with data null (or without data, over HTTP) is accepted, and
    the server can never read its record again. *)
Theorem C72_null_data_refuted : forall of_lit show, data_back of_lit show JNull = None.
Proof. reflexivity. Qed.
Print Assumptions C72_null_data_refuted.

(** C72 refuted: with a serializer that writes null data but does not read it (as the
    JSON serializer), one such event hides every later event from all reads, and
    readers through gRPC are not even told. *)
Theorem C72_null_data_hides_later_events_refuted : exists outs,
  remote_run amnesic_step mem_init
    [OpSave None "thing!x" [thing "null"] None; OpSave None "other!y" [mk_event "other" "y" "E" "b" "" "u" 7] None;
     OpEvents 0; OpTotal "other!y" None]
  = (fst (remote_run amnesic_step mem_init
       [OpSave None "thing!x" [thing "null"] None; OpSave None "other!y" [mk_event "other" "y" "E" "b" "" "u" 7] None;
        OpEvents 0; OpTotal "other!y" None]), outs)
  /\ outs = [CSaved 1; CSaved 1; CResults []; CTotal 1].
Proof. eexists. split; [vm_compute; reflexivity|reflexivity]. Qed.
Print Assumptions C72_null_data_hides_later_events_refuted.
