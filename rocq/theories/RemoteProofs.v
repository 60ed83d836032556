(** Proofs about the remote store. *)
From Verif Require Import Base Core CoreSpec CoreProofs LogSpec StoreSpec DecText Text Remote RemoteSpec.
Open Scope string_scope.
Open Scope N_scope.

(** * The text of a conflict *)

Lemma dec_not_blank n rest : skip_blank (dec n ++ rest) = dec n ++ rest.
Proof.
  destruct (dec_head n) as (c & r & E & Hd). rewrite E. cbn [append skip_blank].
  destruct (blank c) eqn:Eb; [|reflexivity]. exfalso. apply Hd. unfold blank in Eb. unfold digit.
  destruct (N.leb_spec 48 (N_of_ascii c)); [|reflexivity]. destruct (N.leb_spec (N_of_ascii c) 57); [|reflexivity]. exfalso.
  apply orb_true_iff in Eb as [Eb|Eb]; [apply orb_true_iff in Eb as [Eb|Eb]|].
  - apply N.eqb_eq in Eb. lia.
  - apply andb_true_iff in Eb as [_ Eb]. apply N.leb_le in Eb. lia.
  - apply N.eqb_eq in Eb. lia.
Qed.

Lemma scan_dec n rest : n < two64 -> (forall c r, rest = String c r -> digit c = None) ->
  scan_uint (" " ++ dec n ++ rest) = Some (n, rest) /\ scan_uint (dec n ++ rest) = Some (n, rest).
Proof.
  intros Hn Hr.
  assert (H : scan_uint (dec n ++ rest) = Some (n, rest)).
  { unfold scan_uint. rewrite dec_not_blank. pose proof (digits_dec n rest Hr) as Ed.
    destruct (dec_head n) as (c & r & E & Hd). rewrite E in *. cbn [append] in *.
    destruct (digit c) eqn:Ec; [|congruence]. rewrite Ed. apply N.ltb_lt in Hn. now rewrite Hn. }
  split; [|exact H]. rewrite <- H. unfold scan_uint. cbn [append skip_blank]. reflexivity.
Qed.

Lemma scan_both e a : e < two64 -> a < two64 -> scan_numbers (" " ++ dec e ++ ", actual: " ++ dec a) = Some (e, a).
Proof.
  intros He Ha. unfold scan_numbers.
  destruct (scan_dec e (", actual: " ++ dec a) He) as [-> _]; [intros c r E; injection E as <- _; reflexivity|].
  cbn [append scan_text Ascii.eqb Bool.eqb].
  change (scan_space (String " " ?x)) with (Some (skip_blank (String " " x))).
  cbn [scan_space]. change (blank " ") with true. cbn iota. cbn [skip_blank]. change (blank " ") with true. cbn iota.
  cbn [scan_text]. change (blank "a") with false. cbn iota. cbn [scan_text Ascii.eqb Bool.eqb].
  cbn [scan_space]. change (blank " ") with true. cbn iota. cbn [skip_blank]. change (blank " ") with true. cbn iota.
  rewrite <- (app_nil_s (dec a)). rewrite dec_not_blank.
  destruct (scan_dec a "" Ha) as [_ ->]; [discriminate|reflexivity].
Qed.

Lemma conflict_round_trip pre e a : e < two64 -> a < two64 -> first_at_end pre ->
  unexpected_from (pre ++ unexpected_text e a) = (e, a).
Proof.
  intros He Ha Hpre. unfold unexpected_from, split_str, unexpected_text.
  change ("unexpected sequence number: " ++ ?x) with ("unexpected sequence number:" ++ " " ++ x).
  rewrite split_before; [|discriminate|exact Hpre].
  rewrite (split_none "unexpected sequence number:").
  - cbn iota. change ("" ++ ?x) with x. now rewrite scan_both.
  - apply (lacks_contains "x"); [|reflexivity]. rewrite !lacks_app, !lacks_dec by reflexivity. reflexivity.
Qed.

(** A prefix of which no suffix starts the marker. *)
Fixpoint quiet (pre : string) : bool :=
  match pre with
  | EmptyString => true
  | String _ rest => negb (String.prefix "unexpected sequence number:" (pre ++ "unexpected sequence number:")) && quiet rest
  end.
Lemma quiet_first pre : quiet pre = true -> first_at_end pre.
Proof.
  induction pre as [|c pre IH]; intros Hq x y H.
  - cbn [append] in H. apply (f_equal String.length) in H. rewrite !app_length_s in H. cbn in H.
    destruct y; [reflexivity|]. cbn in H. lia.
  - cbn [quiet] in Hq. apply andb_true_iff in Hq as [H1 H2]. apply negb_true_iff in H1.
    destruct x as [|d x].
    + exfalso. rewrite H in H1. change ("" ++ ?z) with z in H1. rewrite prefix_app in H1. discriminate.
    + cbn in H. injection H as _ H. exact (IH H2 x y H).
Qed.

Lemma first_save : first_at_end "rpc error: code = Internal desc = unable to save to store: ".
Proof. apply quiet_first. vm_compute. reflexivity. Qed.
Lemma first_plain : first_at_end "rpc error: code = Unknown desc = ".
Proof. apply quiet_first. vm_compute. reflexivity. Qed.

Section Wire.
Variable detail : err -> string.

Lemma save_conflict_text e a : save_status detail (EUnexpectedSeq e a)
  = "rpc error: code = Internal desc = unable to save to store: " ++ unexpected_text e a.
Proof. reflexivity. Qed.
Lemma plain_conflict_text e a : plain_status detail (EUnexpectedSeq e a) = "rpc error: code = Unknown desc = " ++ unexpected_text e a.
Proof. reflexivity. Qed.

Lemma lacks_unexpected c e a : digit c = None -> lacks c (unexpected_text e a) = lacks c "unexpected sequence number: " && lacks c ", actual: ".
Proof. intros H. unfold unexpected_text. rewrite !lacks_app, !lacks_dec by exact H. now rewrite !andb_true_r. Qed.

Lemma save_conflict e a : e < two64 -> a < two64 ->
  optimistic_error (save_status detail (EUnexpectedSeq e a)) = CErr (EUnexpectedSeq e a).
Proof.
  intros He Ha. rewrite save_conflict_text. unfold optimistic_error.
  rewrite (lacks_contains "C"); [|rewrite lacks_app, lacks_unexpected by reflexivity; reflexivity|reflexivity].
  replace (contains conflict_text _) with true.
  - unfold conflict. now rewrite conflict_round_trip by (auto; apply first_save).
  - symmetry. unfold unexpected_text. change ("unexpected sequence number: " ++ ?z) with (conflict_text ++ ": " ++ z). apply contains_app.
Qed.

Lemma delete_conflict e a : e < two64 -> a < two64 ->
  delete_error (plain_status detail (EUnexpectedSeq e a)) = CErr (EUnexpectedSeq e a).
Proof.
  intros He Ha. rewrite plain_conflict_text. unfold delete_error.
  rewrite (lacks_contains "C"); [|rewrite lacks_app, lacks_unexpected by reflexivity; reflexivity|reflexivity].
  rewrite (lacks_contains "f" notfound_text); [|rewrite lacks_app, lacks_unexpected by reflexivity; reflexivity|reflexivity].
  replace (contains conflict_text _) with true.
  - unfold conflict. now rewrite conflict_round_trip by (auto; apply first_plain).
  - symmetry. unfold unexpected_text. change ("unexpected sequence number: " ++ ?z) with (conflict_text ++ ": " ++ z). apply contains_app.
Qed.

Lemma save_text_skip t : contains conflict_text ("rpc error: code = Internal desc = unable to save to store: " ++ t) = contains conflict_text t.
Proof. unfold conflict_text. reflexivity. Qed.
Lemma plain_text_skip t : contains conflict_text ("rpc error: code = Unknown desc = " ++ t) = contains conflict_text t.
Proof. unfold conflict_text. reflexivity. Qed.

Lemma foreign_quiet er : (forall x, contains conflict_text (detail x) = false) -> (forall p q, er <> EUnexpectedSeq p q) ->
  contains conflict_text (save_status detail er) = false /\ contains conflict_text (plain_status detail er) = false.
Proof.
  intros Hd Hn.
  change (save_status detail er) with ("rpc error: code = Internal desc = unable to save to store: " ++ err_text detail er).
  change (plain_status detail er) with ("rpc error: code = Unknown desc = " ++ err_text detail er).
  rewrite save_text_skip, plain_text_skip.
  destruct er; try (split; reflexivity); try (now destruct (Hn expected actual)); cbn [err_text]; now rewrite Hd.
Qed.

Lemma optimistic_quiet t p q : contains conflict_text t = false -> optimistic_error t <> CErr (EUnexpectedSeq p q).
Proof. intros H. unfold optimistic_error. rewrite H. destruct (contains canceled_text t); discriminate. Qed.
Lemma delete_quiet t p q : contains conflict_text t = false -> delete_error t <> CErr (EUnexpectedSeq p q).
Proof. intros H. unfold delete_error. rewrite H. destruct (contains canceled_text t), (contains notfound_text t); discriminate. Qed.

Lemma contains_part a b s : contains (a ++ b) s = true -> contains b s = true.
Proof. rewrite !contains_spec. intros (x & y & ->). exists (x ++ a), y. now rewrite !app_assoc_s. Qed.

Lemma read_not_found e : (forall x, contains "stream not found" (detail x) = false) ->
  read_error (plain_status detail e) = CErr EStreamNotFound -> e = EStreamNotFound.
Proof.
  intros Hd. unfold read_error. destruct (contains canceled_text _); [discriminate|].
  destruct (contains notfound_text _) eqn:E; [|discriminate]. intros _.
  change notfound_text with ("Unknown desc = " ++ "stream not found") in E. apply contains_part in E.
  change (plain_status detail e) with ("rpc error: code = Unknown desc = " ++ err_text detail e) in E.
  change (contains "stream not found" (err_text detail e) = true) in E.
  destruct e; try reflexivity; cbn [err_text] in E; try (vm_compute in E; discriminate); try (rewrite Hd in E; discriminate).
  exfalso. rewrite (lacks_contains "f"%char) in E; [discriminate| |reflexivity].
  rewrite lacks_unexpected by reflexivity. reflexivity.
Qed.

Variable wire unwire : record -> string + record.

Lemma send_faithful rs : (forall r, In r rs -> exists p, wire r = inr p) ->
  exists ps, send_all wire rs = (ps, None) /\ Forall2 (fun r p => wire r = inr p) rs ps.
Proof.
  induction rs as [|r rs IH]; intros H; cbn [send_all]; [exists []; auto|].
  destruct (H r (or_introl eq_refl)) as (p & E). rewrite E.
  destruct IH as (ps & E' & F); [intros; apply H; now right|]. rewrite E'. exists (p :: ps). auto.
Qed.

Lemma serve_ok checks l : (forall r, In r (before_error l) -> exists p, wire r = inr p) ->
  exists ps, serve_read detail wire checks l
    = (ps, if checks then match first_error l with Some e => Some (plain_status detail e) | None => None end else None)
  /\ Forall2 (fun r p => wire r = inr p) (before_error l) ps.
Proof.
  intros H. unfold serve_read. destruct (consume_spec l (S (length l)) None) as (it & E & He & _ & _); [lia|].
  unfold new_iter. rewrite E, He. destruct (send_faithful _ H) as (ps & -> & F). exists ps. auto.
Qed.

Lemma receive_ok fin rs ps : Forall2 (fun r p => wire r = inr p) rs ps ->
  (forall r p, In r rs -> wire r = inr p -> unwire p = inr r) ->
  receive unwire ps fin = (map inl rs ++ match fin with Some t => [inr (read_error t)] | None => [] end)%list.
Proof.
  intros F. induction F as [|r p rs ps Hw F IH]; intros Hu; cbn [receive map app]; [reflexivity|].
  rewrite (Hu r p (or_introl eq_refl) Hw). f_equal. apply IH. intros; apply Hu; [now right|assumption].
Qed.

(** What the client reads, when every record survives the translation. *)
Lemma client_reads checks l :
  (forall r, In r (before_error l) -> exists p, wire r = inr p /\ unwire p = inr r) ->
  client_read detail wire unwire checks l = (map inl (before_error l) ++
    (if checks then match first_error l with Some e => [inr (read_error (plain_status detail e))] | None => [] end else []))%list.
Proof.
  intros H. unfold client_read.
  destruct (serve_ok checks l) as (ps & -> & F); [intros r Hr; destruct (H r Hr) as (p & E & _); eauto|].
  rewrite (receive_ok _ _ _ F).
  - destruct checks; [|reflexivity]. now destruct (first_error l).
  - intros r p Hr Hw. destruct (H r Hr) as (p' & E & Hu). congruence.
Qed.

End Wire.

Lemma before_error_map' l : before_error (map RRec l) = l.
Proof. induction l; cbn; congruence. Qed.
Lemma first_error_map l : first_error (map RRec l) = None.
Proof. induction l; cbn; auto. Qed.

Section Store.
Variable detail : err -> string.
Variable wire unwire : record -> string + record.
Variable St : Type.
Variable store : St -> op -> St * out.
Variable marshal unmarshal : event -> string + event.

Notation rstep := (remote_step detail wire unwire St store marshal unmarshal).

(** A batch the client lets through has one aggregate (if none of its names is empty). *)
Lemma pack_one t i evs ps : pack marshal t i evs = inr ps -> aggregate_named evs -> t <> "" -> i <> "" ->
  Forall (fun e => ev_atype e = t /\ ev_aid e = i) evs.
Proof.
  revert t i ps. induction evs as [|e evs IH]; intros t i ps H Hn Ht Hi; [constructor|].
  cbn [pack] in H.
  assert (Et : String.eqb t "" = false) by (destruct (String.eqb_spec t ""); congruence).
  assert (Ei : String.eqb i "" = false) by (destruct (String.eqb_spec i ""); congruence).
  rewrite Et, Ei in H. cbn [negb andb] in H.
  destruct (String.eqb_spec t (ev_atype e)) as [E1|]; cbn [negb] in H; [|discriminate].
  destruct (String.eqb_spec i (ev_aid e)) as [E2|]; cbn [negb] in H; [|discriminate].
  destruct (marshal e); [discriminate|]. rewrite <- E1, <- E2 in H.
  destruct (pack marshal t i evs) eqn:Ep; [discriminate|].
  constructor; [auto|]. eapply IH; eauto. intros e' He'. apply Hn. now right.
Qed.

Lemma pack_aggregate evs ps : pack marshal "" "" evs = inr ps -> aggregate_named evs -> one_aggregate evs.
Proof.
  destruct evs as [|e evs]; [intros _ _ ? ? []|]. intros H Hn. cbn [pack] in H. cbn [String.eqb negb andb] in H.
  destruct (marshal e); [discriminate|]. destruct (pack marshal (ev_atype e) (ev_aid e) evs) eqn:Ep; [discriminate|].
  destruct (Hn e (or_introl eq_refl)) as [H1 H2].
  pose proof (pack_one _ _ _ _ Ep (fun e' He' => Hn e' (or_intror He')) H1 H2) as F. rewrite Forall_forall in F.
  intros a b [<-|Ha] [<-|Hb]; auto.
  - destruct (F b Hb). split; congruence.
  - destruct (F a Ha), (F b Hb). split; congruence.
Qed.

Lemma pack_faithful t i evs : faithful marshal ->
  Forall (fun e => (t = "" \/ ev_atype e = t) /\ (i = "" \/ ev_aid e = i)) evs -> one_aggregate evs ->
  pack marshal t i evs = inr evs.
Proof.
  intros Hf. revert t i. induction evs as [|e evs IH]; intros t i HF Ho; [reflexivity|]. cbn [pack].
  inversion HF as [|? ? [H1 H2] H3]; subst.
  replace (negb (String.eqb t "") && negb (String.eqb t (ev_atype e))) with false
    by (destruct H1 as [ -> | <- ]; [reflexivity|rewrite String.eqb_refl; now rewrite andb_false_r]).
  replace (negb (String.eqb i "") && negb (String.eqb i (ev_aid e))) with false
    by (destruct H2 as [ -> | <- ]; [reflexivity|rewrite String.eqb_refl; now rewrite andb_false_r]).
  rewrite Hf, IH; [reflexivity| |intros a b Ha Hb; apply Ho; now right].
  apply Forall_forall. intros e' He'. destruct (Ho e' e (or_intror He') (or_introl eq_refl)). auto.
Qed.

Lemma unpack_faithful evs : faithful unmarshal -> unpack unmarshal evs = inr evs.
Proof. intros H. induction evs as [|e evs IH]; cbn; [reflexivity|]. now rewrite H, IH. Qed.

Lemma step_same s o : faithful wire -> faithful unwire -> faithful marshal -> faithful unmarshal ->
  plain_call o -> answers store ->
  fst (rstep s o) = fst (store s o) /\ told_the_same o (snd (store s o)) (snd (rstep s o)).
Proof.
  intros Hw Hu Hm Hum Ho [Hfit Hempty]. specialize (Hfit s o).
  assert (Hread : forall checks l, client_read detail wire unwire checks l = (map inl (before_error l) ++
    (if checks then match first_error l with Some e => [inr (read_error (plain_status detail e))] | None => [] end else []))%list)
    by (intros; apply client_reads; intros r _; exists r; auto).
  assert (Hb : forall rs e l, before_error (map RRec rs ++ RErr e :: l) = rs) by (clear; induction rs; intros; cbn; [reflexivity|now rewrite IHrs]).
  assert (Hf : forall rs e l, first_error (map RRec rs ++ RErr e :: l) = Some e) by (clear; induction rs; intros; cbn; [reflexivity|now rewrite IHrs]).
  destruct o as [ex st evs cn|ex st cn|g|g ts|k st|st cn]; cbn [remote_step].
  - destruct Ho as (Hone & ->). destruct evs as [|e evs].
    { rewrite Hempty. cbn. auto. }
    rewrite pack_faithful; auto.
    2:{ apply Forall_forall. auto. }
    cbn [done_at]. rewrite unpack_faithful by auto.
    destruct (store s (OpSave ex st (e :: evs) None)) as [s' x]. cbn [fst snd] in *. split; [reflexivity|].
    destruct x as [n l|er| | | | |]; cbn [fits told_the_same] in Hfit |- *; try contradiction; auto.
    destruct ex; destruct er; cbn [telling]; try contradiction. intros []. now rewrite save_conflict.
  - cbn in Ho. subst cn. cbn [done_at]. destruct (store s (OpDelete ex st None)) as [s' x]. cbn [fst snd] in *. split; [reflexivity|].
    destruct x as [n l|er| | | | |]; cbn [fits told_the_same] in Hfit |- *; try contradiction; auto.
    destruct er; cbn [telling]; try contradiction; [intros []; now rewrite delete_conflict|reflexivity].
  - destruct (store s (OpEvents g)) as [s' x]. cbn [fst snd] in *. split; [reflexivity|].
    destruct x as [n l|er| |l| | |]; cbn [fits told_the_same] in Hfit |- *; try contradiction; auto.
    rewrite Hread, app_nil_r. split; intros; subst; [now rewrite before_error_map'|now rewrite Hb].
  - destruct (store s (OpByTypes g ts)) as [s' x]. cbn [fst snd] in *. split; [reflexivity|].
    destruct x as [n l|er| |l| | |]; cbn [fits told_the_same] in Hfit |- *; try contradiction; auto.
    rewrite Hread, app_nil_r. split; intros; subst; [now rewrite before_error_map'|now rewrite Hb].
  - destruct (store s (OpByStream k st)) as [s' x]. cbn [fst snd] in *. split; [reflexivity|].
    destruct x as [n l|er| |l| | |]; cbn [fits told_the_same] in Hfit |- *; try contradiction; auto.
    rewrite Hread. split; intros; subst.
    + now rewrite before_error_map', first_error_map, app_nil_r.
    + rewrite Hb, Hf. eexists. split; [reflexivity|]. intros ->. reflexivity.
  - cbn in Ho. subst cn. cbn [done_at]. destruct (store s (OpTotal st None)) as [s' x]. cbn [fst snd] in *. split; [reflexivity|].
    destruct x as [n l|er| | | | |]; cbn [fits told_the_same] in Hfit |- *; try contradiction; auto.
Qed.
End Store.
