(** C98: the HTTP server as a list of events. *)
From Verif Require Import Base Core CoreSpec CoreProofs LogSpec LogProofs StoreSpec ToyCodec InMemory InMemoryProofs
  DecText Text PathSpec PathProofs NumberSpec NumberProofs Json Remote Http HttpSpec HttpProofs HttpStorySpec HttpStoryProofs Properties_Http
  LevelDB LevelDBSpec LevelDBProofs LevelDBRun Properties_LevelDB.
From Coq Require Import Permutation.
Open Scope string_scope.
Open Scope list_scope.
Open Scope N_scope.

Lemma mem_story of_lit print c : codec_ok c -> codec_total c -> forall qs ws, Forall2 says qs ws -> forall m L, InMemoryProofs.R c m L ->
  exists b, story (stored of_lit print) (book_of L) ws (replies (http_step of_lit print mem (mem_step c)) m qs) b.
Proof.
  intros Hc Ht qs ws H. induction H as [|q w qs ws Hq _ IH]; intros m L HR; cbn [replies].
  { eexists. constructor. }
  assert (Hw : w = Nonsense \/ w <> Nonsense) by (destruct w; auto; right; discriminate). destruct Hw as [->|Hw].
  - destruct (nonsense_refused of_lit print mem (mem_step c) m q Hq) as (body & ->).
    destruct (IH m L HR) as (b & Hb). exists b. econstructor; [apply refused|exact Hb].
  - assert (Hp : plain_call c (call_of of_lit print q w)).
    { destruct w as [name ex es|name n|name| |ts|]; cbn [says call_of plain_call] in *; try exact Logic.I.
      - split; [apply stamped_aggregate; apply Hq|]. split; [now left|]. now left.
      - apply Hq. }
    destruct (InMemoryProofs.step_ok c Hc m L _ HR Hp) as (x & Hs & Ha & HR').
    destruct (mem_step c m (call_of of_lit print q w)) as [m' y] eqn:E. cbn [fst snd] in *.
    destruct (log_serves of_lit print c L q w x y Ht Hq Hw Hs Ha) as [S1 S2].
    rewrite (http_calls of_lit print mem (mem_step c) m q w m' y Hq Hw E S2).
    destruct (IH m' _ HR') as (b & Hb). exists b. econstructor; [exact S1|exact Hb].
Qed.

(** C98: any requests that say something, and any that make no sense, one after the
    other, to a server in front of an empty in-memory store: they are answered as the
    list of events in HttpStorySpec.v is. *)
Theorem C98_http_history : forall of_lit print c qs ws, codec_ok c -> codec_total c -> Forall2 says qs ws ->
  exists b, story (fun j => print (decode of_lit false j)) empty_book ws
              (replies (http_step of_lit print mem (mem_step c)) mem_init qs) b.
Proof. intros of_lit print c qs ws Hc Ht H. exact (mem_story of_lit print c Hc Ht qs ws H mem_init empty_log (R_init c)). Qed.
Print Assumptions C98_http_history.

(** In particular: what was posted is what is read next, after what was there. *)
Theorem C98_posted_is_read : forall of_lit print c qs ws q g name ex es earlier old body now, codec_ok c -> codec_total c ->
  Forall2 says qs ws -> says q (Post name ex es) -> says g (GetStream name) -> length earlier = length qs ->
  replies (http_step of_lit print mem (mem_step c)) mem_init (qs ++ [g; q; g])
    = earlier ++ [Records old; Answer 201 body; Records now] ->
  exists new, now = old ++ new /\ map said new = map (described_as (fun j => print (decode of_lit false j)) name) es
    /\ map r_ssn new = count (N.of_nat (length old)) (length es).
Proof.
  intros of_lit print c qs ws q g name ex es earlier old body now Hc Ht H Hq Hg Hl E.
  assert (HF : Forall2 says (qs ++ [g; q; g]) (ws ++ [GetStream name; Post name ex es; GetStream name])).
  { apply Forall2_app; [exact H|]. repeat (apply Forall2_cons; [assumption|]). apply Forall2_nil. }
  destruct (C98_http_history of_lit print c _ _ Hc Ht HF) as (b & S). rewrite E in S.
  assert (K : length qs = length ws) by (clear - H; induction H; cbn; congruence). rewrite K in Hl. clear K.
  clear E H HF Hg. revert earlier Hl S. generalize empty_book.
  induction ws as [|w ws IH]; intros b0 [|a earlier] Hl S; try discriminate; cbn [app] in S.
  - inversion S as [|? ? ? b1 ? ? ? S1 S']; subst. inversion S1; subst. clear S S1.
    inversion S' as [|? ? ? b2 ? ? ? S1 S'']; subst. inversion S1 as [? ? ? new gg bod Hex Hsaid Hssn Hgsn Hgg Htell| | | | | | | |]; subst. clear S' S1.
    inversion S'' as [|? ? ? b3 ? ? ? S1 S3]; subst. inversion S1; subst.
    exists new. split; [|split].
    + unfold stream_of. cbn [events]. rewrite filter_app. f_equal. apply filter_all. intros r Hr.
      assert (K : In (said r) (map said new)) by now apply in_map. rewrite Hsaid in K. apply in_map_iff in K as (e & K & _).
      injection K as <- _ _ _ _ _. apply String.eqb_refl.
    + exact Hsaid.
    + exact Hssn.
  - inversion S as [|? ? ? b1 ? ? ? S1 S']; subst. exact (IH b1 earlier ltac:(cbn in Hl; congruence) S').
Qed.
Print Assumptions C98_posted_is_read.

(** ** LevelDB *)

Lemma refusal_total c cn s t i evs : codec_total c -> forall g k n, refusal c cn s t i g k n evs <> Some ESerialize.
Proof.
  intros Hc. induction evs as [|e evs IH]; intros g k n; cbn [refusal]; [discriminate|].
  destruct (negb _); [discriminate|]. destruct (negb _); [discriminate|]. destruct (done_at cn n); [discriminate|].
  destruct (ser c _) eqn:E; [apply IH|now apply Hc in E].
Qed.

Lemma exec_step c L o : codec_total c -> log_step c L o (snd (log_exec c L o)) (log_after L o (snd (log_exec c L o)))
  /\ fst (log_exec c L o) = log_after L o (snd (log_exec c L o)).
Proof.
  intros Hc. assert (E : forall last, mk_log (l_recs L) last = L <-> last = l_last L).
  { intros last. destruct L. cbn. split; [now intros [= <-]|now intros ->]. }
  destruct o as [ex s evs cn|ex s cn|g|g ts|k s|s cn]; cbn [log_exec].
  - destruct (save_refused c L ex s evs cn) as [e|] eqn:Es; cbn [fst snd log_after].
    + assert (He : e <> ESerialize).
      { intros ->. unfold save_refused in Es. destruct evs as [|e0 evs]; [discriminate|]. destruct (done_at cn 0); [discriminate|].
        destruct ex as [x|]; [destruct (x =? _); [|discriminate]|]; now apply refusal_total in Es. }
      assert (Eb : burnt L e = L) by (unfold burnt; apply E; destruct e; congruence).
      rewrite Eb. split; [|reflexivity]. rewrite <- (proj2 (E (l_last L)) eq_refl) at 2. apply LSaveRefused; [exact Es|lia].
    + split; [now apply LSaved|reflexivity].
  - destruct (delete_refused L ex s cn) as [e|] eqn:Es; cbn [fst snd log_after]; (split; [|reflexivity]).
    + now apply LDeleteRefused.
    + now apply LDeleted.
  - cbn. split; [now apply LRead|reflexivity].
  - cbn. split; [now apply LRead|reflexivity].
  - cbn. split; [now apply LRead|reflexivity].
  - cbn. split; [now apply LRead|reflexivity].
Qed.

Lemma call_clean of_lit print q w : says q w -> tidy w -> w <> Nonsense -> clean_call (call_of of_lit print q w).
Proof.
  intros Hq Ht Hw. destruct w as [name ex es|name n|name| |ts|]; cbn [says tidy call_of clean_call] in *; try exact Ht.
  - destruct Hq as (_ & _ & _ & _ & _ & _ & Hag & _). destruct Ht as [H1 H2]. split; [exact H1|].
    pose proof (stamped_aggregate of_lit print (q_stamp q) es Hag) as Hone. split.
    + rewrite Forall_forall in *. intros e He. destruct (stamped_in _ _ _ _ _ He) as (v & Hv & E1 & _).
      rewrite E1. apply in_map_iff in Hv as (x & <- & Hx). exact (H2 x Hx).
    + destruct (stamped _ _ _ _) as [|e0 evs] eqn:E; [exact Logic.I|]. cbn [definite_batch].
      split; intros H e He; destruct (Hone e e0 He (or_introl eq_refl)); congruence.
  - reflexivity.
  - split; [reflexivity|]. split; [apply Hq|exact Ht].
  - congruence.
Qed.

Lemma ldb_story of_lit print c : codec_ok c -> codec_total c -> forall qs ws, Forall2 says qs ws -> Forall tidy ws -> forall d L, D c d L ->
  l_last L + all_new ws < two64 ->
  all_deleted ws (replies (http_step of_lit print ldb (ldb_step c)) (mk_ldb (quiet d) false) qs) ->
  exists b, story (stored of_lit print) (book_of L) ws (replies (http_step of_lit print ldb (ldb_step c)) (mk_ldb (quiet d) false) qs) b.
Proof.
  intros Hc Ht qs ws H. induction H as [|q w qs ws Hq _ IH]; intros Hti d L HD Hsm; cbn [replies].
  { intros _. eexists. constructor. }
  inversion Hti as [|? ? Hti1 Hti2]; subst. cbn [all_new] in Hsm.
  assert (Hw : w = Nonsense \/ w <> Nonsense) by (destruct w; auto; right; discriminate). destruct Hw as [->|Hw].
  - destruct (nonsense_refused of_lit print ldb (ldb_step c) (mk_ldb (quiet d) false) q Hq) as (body & ->). cbn [all_deleted]. intros Hdel.
    destruct (IH Hti2 d L HD ltac:(cbn in Hsm; lia) Hdel) as (b & Hb). exists b. econstructor; [apply refused|exact Hb].
  - pose proof (call_clean of_lit print q w Hq Hti1 Hw) as Hcl.
    assert (Hadd : added (call_of of_lit print q w) = new_events w).
    { destruct w; cbn; try reflexivity. now rewrite stamped_length, map_length. }
    destruct (exec_step c L (call_of of_lit print q w) Ht) as [Hs Ef].
    pose proof (log_exec_last c L (call_of of_lit print q w)) as Hlast.
    set (o := call_of of_lit print q w) in *. set (x := snd (log_exec c L o)) in *.
    destruct (log_serves of_lit print c L q w x x Ht Hq Hw Hs (or_introl eq_refl)) as [S1 S2].
    destruct (LevelDBProofs.step_ok c Hc d L o HD Hcl ltac:(lia)) as [(d' & E & HD')|(Hr & _ & E)]; fold x in E.
    + rewrite (http_calls of_lit print ldb (ldb_step c) _ q w _ x Hq Hw E S2).
      intros Hdel. destruct (IH Hti2 d' _ HD' ltac:(lia)) as (b & Hb).
      { destruct w; cbn [all_deleted] in Hdel; try exact Hdel. apply Hdel. }
      exists b. econstructor; [exact S1|]. fold o. rewrite <- Ef. exact Hb.
    + rewrite (http_calls of_lit print ldb (ldb_step c) _ q w _ x Hq Hw E S2). intros Hdel. exfalso. change (refused_delete o x) in Hr. clearbody x.
      destruct w as [name ex es|name n|name| |ts|]; unfold o in Hr; cbn [call_of refused_delete] in Hr; try contradiction.
      cbn [all_deleted] in Hdel. destruct Hdel as [(body & K) _]. destruct x as [|[] | | | | |]; try contradiction; cbn [reply failed] in K; discriminate K.
Qed.

(** ... and to one in front of an empty LevelDB store, as long as no delete is refused
    (C18: after a refused one nothing can be saved any more), the names do not hold "$!"
    and fewer than 2^64 events are posted. *)
Theorem C98_http_history_leveldb_partial : forall of_lit print c qs ws, codec_ok c -> codec_total c -> Forall2 says qs ws ->
  Forall tidy ws -> all_new ws < 18446744073709551616 ->
  let answers := replies (http_step of_lit print ldb (ldb_step c)) ldb_init qs in
  all_deleted ws answers ->
  exists b, story (fun j => print (decode of_lit false j)) empty_book ws answers b.
Proof.
  intros of_lit print c qs ws Hc Ht H Hti Hn answers Hd.
  exact (ldb_story of_lit print c Hc Ht qs ws H Hti [] empty_log (D_init c) Hn Hd).
Qed.
Print Assumptions C98_http_history_leveldb_partial.

(** A history that meets the hypotheses: two posts, one of them with the wrong number,
    a read by type, a delete and reads of what is left, and a post with a bad number. *)
Definition told : client_event := mk_client_event "thing" "x" "E" (JStr "a") JNull.
Definition told' : client_event := mk_client_event "other" "y" "E" (JStr "b") JNull.
Definition demo : list (request * wish) :=
  [ (post "/save-events/thing!x" "" (Some (JArr [ev_json "thing" "x" "a"; ev_json "thing" "x" "a"])), Post "thing!x" None [told; told])
  ; (post "/save-events/other%21y" "0" (Some (JArr [ev_json "other" "y" "b"])), Post "other!y" (Some 0) [told'])
  ; (post "/save-events/other%21y" "7" (Some (JArr [ev_json "other" "y" "b"])), Post "other!y" (Some 7) [told'])
  ; (post "/events-by-aggregate-type/other,thing.ndjson" "" None, GetTypes ["other"; "thing"])
  ; (post "/delete-stream/thing!x" "2" None, Delete "thing!x" 2)
  ; (post "/events-by-stream/thing!x.json" "" None, GetStream "thing!x")
  ; (post "/save-events/thing!x" "two" (Some (JArr [ev_json "thing" "x" "a"])), Nonsense)
  ; (post "/all-events.msgpack" "" None, GetAll) ].
Lemma ev_json_describes t i d : describes (ev_json t i d) (mk_client_event t i "E" (JStr d) JNull).
Proof.
  eexists. split; [reflexivity|]. cbn [ce_atype ce_aid ce_etype ce_data ce_meta].
  exact (Permutation_middle [("aggregateType", JStr t); ("aggregateID", JStr i); ("eventType", JStr "E")] [("metadata", JNull)] ("data", JStr d)).
Qed.
Lemma alike e : client_aggregate [e; e].
Proof. intros x y [<-|[<-|[]]] [<-|[<-|[]]]; auto. Qed.
Lemma alone e : client_aggregate [e].
Proof. intros x y [<-|[]] [<-|[]]; auto. Qed.
Ltac spell := apply unescape_spelled; reflexivity.
Ltac address := repeat split; (reflexivity || discriminate).
Example C98_inhabited : Forall2 says (map fst demo) (map snd demo) /\ Forall tidy (map snd demo)
  /\ (let l := replies hmem mem_init (map fst demo) in
      nth_error l 0 = Some (Answer 201 ("{" ++ ok_body "streamSequenceNumber" 2 ++ "}"))
      /\ (exists t, nth_error l 2 = Some (Answer 409 t))
      /\ (exists r1 r2 r3, nth_error l 3 = Some (Records [r1; r2; r3]) /\ map r_gsn [r1; r2; r3] = [1; 2; 3])
      /\ nth_error l 5 = Some (Records [])
      /\ (exists t, nth_error l 6 = Some (Answer 400 t))
      /\ exists r, nth_error l 7 = Some (Records [r]) /\ said r = ("other!y", "other", "y", "E", "b", "null"))
  /\ all_deleted (map snd demo) (replies (http_step (fun s => FOther s) show_value ldb (ldb_step toy)) ldb_init (map fst demo)).
Proof.
  split; [|split; [|split]].
  - unfold demo. cbn [map fst snd].
    repeat (apply Forall2_cons); [| | | | | | | |apply Forall2_nil].
    + split; [address|]. split; [spell|]. split; [reflexivity|]. split; [reflexivity|]. split.
      { eexists. split; [reflexivity|]. repeat (apply Forall2_cons; [apply ev_json_describes|]). apply Forall2_nil. }
      split; [discriminate|]. split; [apply alike|reflexivity].
    + split; [address|]. split; [spell|]. split; [reflexivity|]. split; [reflexivity|]. split.
      { eexists. split; [reflexivity|]. repeat (apply Forall2_cons; [apply ev_json_describes|]). apply Forall2_nil. }
      split; [discriminate|]. split; [apply alone|]. apply parse_reads. reflexivity.
    + split; [address|]. split; [spell|]. split; [reflexivity|]. split; [reflexivity|]. split.
      { eexists. split; [reflexivity|]. repeat (apply Forall2_cons; [apply ev_json_describes|]). apply Forall2_nil. }
      split; [discriminate|]. split; [apply alone|]. apply parse_reads. reflexivity.
    + split; [repeat constructor; cbn; intuition discriminate|]. split; [discriminate|]. split.
      { repeat (constructor; [cbn [only_letters]; repeat (split; [unfold plain_letter; vm_compute; intuition congruence|]); exact Logic.I|]). constructor. }
      split; [discriminate|]. exists "ndjson". split; [cbn; auto|spell].
    + split; [address|]. split; [spell|]. split; [reflexivity|]. left. apply parse_reads. reflexivity.
    + split; [discriminate|]. split; [reflexivity|]. exists "json". split; [cbn; auto|spell].
    + right. left. exists "thing!x". split; [address|]. split; [spell|]. right. right. right. split; [discriminate|].
      intros n K. apply parse_reads in K. discriminate K.
    + exists "msgpack". split; [cbn; auto|spell].
  - assert (A : clean "thing!x") by (apply (clean_by_check _ 7); vm_compute; auto).
    assert (B : clean "other!y") by (apply (clean_by_check _ 7); vm_compute; auto).
    assert (C : clean "thing") by (apply (clean_by_check _ 5); vm_compute; auto).
    assert (E : clean "other") by (apply (clean_by_check _ 5); vm_compute; auto).
    repeat constructor; assumption.
  - cbv zeta. split; [vm_compute; reflexivity|]. split; [eexists; vm_compute; reflexivity|].
    split; [eexists _, _, _; split; [vm_compute; reflexivity|reflexivity]|]. split; [vm_compute; reflexivity|].
    split; [eexists; vm_compute; reflexivity|]. eexists. split; [vm_compute; reflexivity|reflexivity].
  - vm_compute. repeat split. eexists. reflexivity.
Qed.
