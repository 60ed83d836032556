(** C103: stores with the JSON serializer. *)
From Coq Require Import ZArith.
From Verif Require Import Base Core CoreSpec CoreProofs LogSpec LogProofs StoreSpec InMemory InMemoryProofs
  DecText Text Json JsonText JsonTextSpec RecordIoSpec RecordIoProofs HttpBytes HttpBytesSpec PatchCodec
  LevelDB LevelDBSpec LevelDBProofs LevelDBRun Properties_InMemory Properties_LevelDB JsonStoreSpec JsonStoreProofs HttpBytesProofs.
Import Base.
Open Scope string_scope.
Open Scope list_scope.
Open Scope N_scope.

(** C103: any calls on an in-memory store that keeps its records with the JSON
    serializer, the events having UTF-8 names and data that is not null: the answers are
    those of the log, which encodes nothing. *)
Theorem C103_in_memory : forall show c ops, codec_total c -> Forall (json_call show) ops -> Forall simple_call ops -> events_in ops < 2 ^ 64 ->
  exists answers L, log_run c empty_log ops answers L /\ all_agree ops answers (snd (run (mem_step (json_serializer show)) mem_init ops)).
Proof.
  intros show c ops Hc Hj Hs Hn. set (js := json_serializer show) in *.
  pose proof (mem_transfer show ops mem_init empty_log (R_init _) plain_init Hj Hn) as T. fold js in T. rewrite T.
  destruct (C06_inmemory_refines_log (patched js) ops (patched_ok js (unmarked_json show))) as (xs & L & H1 & H2).
  { eapply Forall_impl; [|exact Hs]. intros o Ho. destruct o; try exact Ho. destruct Ho as [A B]. split; [exact A|]. split; [exact B|]. left. apply patched_total. }
  exists xs, L. split; [|exact H2]. exact (run_total _ c _ _ _ _ (patched_total js) Hc H1).
Qed.
Print Assumptions C103_in_memory.

Lemma lives_run c ops : forall st, lives c st (map (fun o => (o, None)) ops) = (fst (run (ldb_step c) st ops), map Some (snd (run (ldb_step c) st ops))).
Proof.
  induction ops as [|o ops IH]; intros st; cbn [map lives run]; [reflexivity|]. destruct (ldb_step c st o) as [st1 x]. rewrite IH.
  destruct (run (ldb_step c) st1 ops). reflexivity.
Qed.
Lemma same_somes {A} (l l' : list A) : map Some l = map Some l' -> l = l'.
Proof. revert l'. induction l as [|x l IH]; intros [|y l'] H; try discriminate; [reflexivity|]. injection H as <- H. f_equal. now apply IH. Qed.
Lemma ldb_transfer show ops : Forall clean_call ops -> Forall (json_call show) ops -> events_in ops < 2 ^ 64 ->
  run (ldb_step (json_serializer show)) ldb_init ops = run (ldb_step (patched (json_serializer show))) ldb_init ops.
Proof.
  intros Hcl Hj Hn. assert (E : map fst (map (fun o : op => (o, @None nat)) ops) = ops) by (rewrite map_map; apply map_id).
  pose proof (lives_transfer show (map (fun o => (o, None)) ops) ldb_init empty_log (D_init _)) as T. rewrite E in T. specialize (T Hcl Hj Hn (Forall_nil _)).
  rewrite !lives_run in T. destruct (run (ldb_step (json_serializer show)) ldb_init ops) as [a l]. destruct (run (ldb_step (patched (json_serializer show))) ldb_init ops) as [a' l'].
  cbn [fst snd] in T. injection T as <- T. f_equal. now apply same_somes.
Qed.

(** ... and so are the answers of the calls that return on a LevelDB store, when names
    do not hold "$!" (after a refused delete saves and deletes do not return any more:
    C18). *)
Theorem C103_leveldb_partial : forall show c ops, codec_total c -> Forall (json_call show) ops -> Forall clean_call ops -> events_in ops < 2 ^ 64 ->
  let r := returned ops (snd (run (ldb_step (json_serializer show)) ldb_init ops)) in
  map snd r = snd (run (log_exec c) empty_log (map fst r)).
Proof.
  intros show c ops Hc Hj Hcl Hn. cbv zeta. rewrite (ldb_transfer show ops Hcl Hj Hn).
  rewrite (exec_total c (patched (json_serializer show)) Hc (patched_total _)).
  exact (C16_leveldb_refines_log_partial _ ops (patched_ok _ (unmarked_json show)) Hcl Hn).
Qed.
Print Assumptions C103_leveldb_partial.

(** With crashes at any point: what can be read after the last restart is what the log
    contains after the calls that returned success and some of those cut short, each of
    them completely. *)
Theorem C103_crashes_partial : forall show c h, codec_total c -> Forall (json_call show) (map fst h) -> Forall clean_call (map fst h) ->
  events_in (map fst h) < 2 ^ 64 ->
  exists kept, survives h (snd (lives (json_serializer show) ldb_init h)) kept /\
  forall o x, clean_call o -> read_result (fst (run (log_exec c) empty_log kept)) o = Some x ->
    snd (ldb_step (json_serializer show) (ldb_reopen (fst (lives (json_serializer show) ldb_init h))) o) = x.
Proof.
  intros show c h Hc Hj Hcl Hn. set (js := json_serializer show) in *.
  assert (T : forall k, match k with Some o => clean_call o /\ json_call show o /\ added o = 0 | None => True end ->
    lives js ldb_init (h ++ match k with Some o => [(OpTotal "" None, Some 0%nat); (o, None)] | None => [] end)
    = lives (patched js) ldb_init (h ++ match k with Some o => [(OpTotal "" None, Some 0%nat); (o, None)] | None => [] end)).
  { intros k Hk. apply (lives_transfer show _ ldb_init empty_log (D_init _)); [| | |constructor]; rewrite ?map_app.
    - apply Forall_app. split; [exact Hcl|]. destruct k as [o|]; [|constructor]. cbn [map fst]. constructor; [|constructor; [apply Hk|constructor]].
      apply (clean_by_check "" 0); vm_compute; auto.
    - apply Forall_app. split; [exact Hj|]. destruct k as [o|]; [|constructor]. cbn [map fst]. constructor; [exact Logic.I|constructor; [apply Hk|constructor]].
    - replace (events_in (map fst h ++ _)) with (events_in (map fst h)); [cbn [l_last empty_log]; lia|].
      unfold events_in. rewrite fold_right_app. f_equal. destruct k as [o|]; [|reflexivity]. cbn [map fst fold_right added]. destruct Hk as (_ & _ & ->). reflexivity. }
  pose proof (T None Logic.I) as T0. cbv iota in T0. rewrite app_nil_r in T0. rewrite T0.
  destruct (C17_crash_atomic (patched js) h (patched_ok _ (unmarked_json show)) Hcl Hn) as (kept & S1 & S2).
  exists kept. split; [exact S1|]. intros o x Ho Hx.
  assert (El : run (log_exec c) empty_log kept = run (log_exec (patched js)) empty_log kept) by (apply exec_total; [exact Hc|apply patched_total]).
  rewrite El in Hx. rewrite <- (S2 o x Ho Hx).
  assert (Hr : json_call show o /\ added o = 0) by (destruct o; try discriminate Hx; split; (exact Logic.I || reflexivity)).
  pose proof (T (Some o) (conj Ho Hr)) as T1. cbv iota in T1.
  assert (G : forall c', snd (lives c' ldb_init (h ++ [(OpTotal "" None, Some 0%nat); (o, None)]))
    = snd (lives c' ldb_init h) ++ [None; Some (snd (ldb_step c' (ldb_reopen (fst (lives c' ldb_init h))) o))]).
  { intros c'. generalize ldb_init. clear. induction h as [|[o' [k|]] h IH]; intros st; cbn [app lives].
    - assert (Ec : ldb_crash c' st (OpTotal "" None) 0 = ldb_reopen st). { unfold ldb_crash. cbn [early done_at]. now destruct (_ || _). }
      rewrite Ec. cbn [fst]. destruct (ldb_step c' (ldb_reopen st) o) as [st1 x]. reflexivity.
    - rewrite (surjective_pairing (lives c' (ldb_crash c' st o' k) (h ++ _))). rewrite IH. destruct (lives c' (ldb_crash c' st o' k) h). reflexivity.
    - destruct (ldb_step c' st o') as [st1 x]. rewrite (surjective_pairing (lives c' st1 (h ++ _))). rewrite IH. destruct (lives c' st1 h). reflexivity. }
  apply (f_equal snd) in T1. rewrite !G, <- T0 in T1. apply app_inv_head in T1. injection T1 as T1. rewrite <- T0. exact T1.
Qed.
Print Assumptions C103_crashes_partial.

(** So whatever is proved of stores with a serializer that fails never and reads back
    what it wrote holds of stores with the JSON serializer, for such events: no caller
    can tell them apart. *)
Theorem C103_any_serializer : forall show, exists c, codec_ok c /\ codec_total c
  /\ (forall s g k e, is_text s -> json_event show e -> g < 2 ^ 64 -> k < 2 ^ 64 ->
      ser c (record_at s g k e) = ser (json_serializer show) (record_at s g k e))
  /\ (forall ops, Forall (json_call show) ops -> events_in ops < 2 ^ 64 ->
      run (mem_step (json_serializer show)) mem_init ops = run (mem_step c) mem_init ops)
  /\ (forall h, Forall (json_call show) (map fst h) -> Forall clean_call (map fst h) -> events_in (map fst h) < 2 ^ 64 ->
      lives (json_serializer show) ldb_init h = lives c ldb_init h).
Proof.
  intros show. exists (patched (json_serializer show)). split; [apply patched_ok, unmarked_json|]. split; [apply patched_total|]. split; [|split].
  - intros s g k e Hs (E1 & E2 & E3 & E4 & E5 & E6 & E7) Hg Hk. apply patched_ser, json_works. unfold json_record, record_at.
    cbn [r_stream r_atype r_aid r_etype r_eid r_ts r_ssn r_gsn r_data r_meta]. repeat (split; [assumption|]). exact E7.
  - intros ops Hj Hn. exact (mem_transfer show ops mem_init empty_log (R_init _) plain_init Hj Hn).
  - intros h Hj Hcl Hn. exact (lives_transfer show h ldb_init empty_log (D_init _) Hcl Hj Hn (Forall_nil _)).
Qed.
Print Assumptions C103_any_serializer.

(** Calls that meet the hypotheses. *)
Definition plain_show (f : float) : num := match f with FInt z => Int z | FOther s => Lit s end.
Definition noted (d m : string) : event := mk_event "thing" "x" "E" d m "u" 7.
Definition calls : list op :=
  [ OpSave None "thing!x" [noted "{""a"":[1,-25],""b"":""b""}" "null"; noted "true" "{}"] None
  ; OpSave (Some 7) "thing!x" [noted "1" "1"] None; OpByStream 0 "thing!x"; OpByTypes 0 ["thing"; "other"]; OpDelete 2 "thing!x" None; OpTotal "thing!x" None ].

Lemma written_text v : carried v -> levels v + 1 <= 10000 -> json_written plain_show v (text_of_value plain_show v).
Proof. intros A B. split; [exact A|]. split; [exact B|reflexivity]. Qed.
Ltac texts := repeat (split; [now apply ascii_text|]).
Example C103_inhabited : Forall (json_call plain_show) calls /\ Forall simple_call calls /\ Forall clean_call calls
  /\ (exists r1 r2, nth_error (snd (run (mem_step (json_serializer plain_show)) mem_init calls)) 2 = Some (OutResults [RRec r1; RRec r2])
      /\ r_data r1 = "{""a"":[1,-25],""b"":""b""}" /\ r_data r2 = "true" /\ r_gsn r2 = 2)
  /\ snd (run (mem_step (json_serializer plain_show)) mem_init calls) = snd (run (ldb_step (json_serializer plain_show)) ldb_init calls).
Proof.
  assert (N1 : exists v, json_written plain_show v "null") by (exists GNil; apply (written_text GNil); [constructor|vm_compute; discriminate]).
  assert (N2 : exists v, json_written plain_show v "{}") by (exists (GMap []); apply (written_text (GMap [])); [constructor; [exact Logic.I|intros k v []]|vm_compute; discriminate]).
  assert (N3 : exists v, v <> GNil /\ json_written plain_show v "true").
  { exists (GBool true). split; [discriminate|apply (written_text (GBool true)); [constructor|vm_compute; discriminate]]. }
  assert (N4 : exists v, v <> GNil /\ json_written plain_show v "1").
  { exists (GNumber (Int 1)). split; [discriminate|apply (written_text (GNumber (Int 1))); [constructor; exact Logic.I|vm_compute; discriminate]]. }
  assert (N5 : exists v, v <> GNil /\ json_written plain_show v "{""a"":[1,-25],""b"":""b""}").
  { set (v := GMap [("a", GSlice [GNumber (Int 1); GNumber (Int (-25))]); ("b", GStr "b")]).
    exists v. split; [discriminate|]. apply (written_text v); [|vm_compute; discriminate].
    constructor; [split; [reflexivity|exact Logic.I]|]. intros k x [[= <- <-]|[[= <- <-]|[]]]; (split; [now apply ascii_text|]).
    - constructor. intros y [<-|[<-|[]]]; constructor; exact Logic.I.
    - constructor. now apply ascii_text. }
  split; [|split; [|split; [|split]]].
  - unfold calls. constructor; [|constructor; [|repeat (constructor; [exact Logic.I|]); constructor]].
    + split; [now apply ascii_text|]. constructor; [|constructor; [|constructor]]; (unfold json_event; texts; split; [reflexivity|]); (split; [assumption|]); assumption.
    + split; [now apply ascii_text|]. constructor; [|constructor]. unfold json_event. texts. split; [reflexivity|]. split; [exact N4|]. destruct N4 as (v & _ & H). now exists v.
  - assert (O : forall l, (forall e, In e l -> ev_atype e = "thing" /\ ev_aid e = "x") -> one_aggregate l).
    { intros l H e e' He He'. destruct (H e He) as [-> ->]. destruct (H e' He') as [-> ->]. auto. }
    unfold calls. constructor; [split; [|now left]|constructor; [split; [|now left]|]].
    + apply O. intros e [<-|[<-|[]]]; auto.
    + apply O. intros e [<-|[]]; auto.
    + repeat (constructor; [exact Logic.I || (repeat constructor; cbn; intuition discriminate)|]). constructor.
  - assert (A : clean "thing!x") by (apply (clean_by_check _ 7); vm_compute; auto).
    assert (B : clean "thing") by (apply (clean_by_check _ 5); vm_compute; auto).
    assert (C : clean "other") by (apply (clean_by_check _ 5); vm_compute; auto).
    unfold calls. repeat constructor; try assumption; cbn; try (intuition congruence); try (intuition discriminate).
  - eexists _, _. split; [vm_compute; reflexivity|]. repeat split.
  - vm_compute. reflexivity.
Qed.

(** Without the conditions on events it is not so: null data is acknowledged and can not
    be read; a name that is no UTF-8 is acknowledged and read back as another name. *)
Theorem C103_null_data_refuted :
  snd (run (mem_step (json_serializer plain_show)) mem_init [OpSave None "thing!x" [noted "null" "null"] None; OpByStream 0 "thing!x"; OpTotal "thing!x" None])
     = [OutSaved 1 []; OutResults [RErr EDeserialize]; OutTotal 1].
Proof. vm_compute. reflexivity. Qed.
Print Assumptions C103_null_data_refuted.
Theorem C103_bad_name_refuted : exists r s, let bad := String "255" "" in
  snd (run (mem_step (json_serializer plain_show)) mem_init [OpSave None bad [noted "1" "1"] None; OpByStream 0 bad]) = [OutSaved 1 [r]; OutResults [RRec r]]
  /\ r_stream r = s /\ s <> bad.
Proof. eexists _, _. cbv zeta. split; [vm_compute; reflexivity|]. split; [reflexivity|discriminate]. Qed.
Print Assumptions C103_bad_name_refuted.
