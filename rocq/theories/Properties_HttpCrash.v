(** C100: the HTTP server in front of LevelDB, in a process that may die. *)
From Verif Require Import Base Core CoreSpec CoreProofs LogSpec LogProofs StoreSpec ToyCodec
  DecText Text PathSpec PathProofs NumberSpec NumberProofs Json Remote Http HttpSpec HttpProofs HttpRouteProofs HttpStorySpec HttpStoryProofs
  Properties_Http LevelDB LevelDBSpec LevelDBProofs LevelDBRun Properties_LevelDB Properties_HttpStory HttpCrash HttpCrashSpec.
Open Scope string_scope.
Open Scope list_scope.
Open Scope N_scope.

(** A call that does not return is not answered, and the store is as the call left it. *)
Lemma blocked_call of_lit print St (store : St -> op -> St * out) s q w s' : says q w -> w <> Nonsense ->
  store s (call_of of_lit print q w) = (s', OutBlocked) -> http_step of_lit print St store s q = (s', NoAnswer).
Proof.
  intros H Hw E. destruct w as [name ex es|name n|name| |ts|]; cbn [says call_of] in *.
  - destruct H as (Hn & Ha & Hct & Hcn & Hd & Hne & Hag & Hex).
    unfold http_step. rewrite (route_save q name Hn Ha). unfold save_events. rewrite Hct, String.eqb_refl. cbn [negb].
    rewrite (described_body of_lit print q es Hd), (expects_header q ex Hex), Hcn, E. reflexivity.
  - destruct H as (Hn & Ha & Hcn & Hex). unfold http_step. rewrite (route_delete q name Hn Ha). unfold delete_stream.
    assert (exists ex, expected_header q = Some ex /\ match ex with Some k => k | None => 0 end = n) as (ex & -> & Ek).
    { destruct Hex as [Hex|[Hex ->]]; [exists (Some n)|exists None]; (split; [now apply expects_header|reflexivity]). }
    rewrite Ek, Hcn, E. reflexivity.
  - destruct H as (H0 & Hn & e & He & Ha). unfold http_step.
    rewrite (route_stream q name e Hn H0 (ext_extension e He) Ha). unfold read_with. now rewrite E.
  - destruct H as (e & He & Ha). apply spelled_unescape in Ha. unfold http_step, route_of. rewrite Ha.
    replace (route_path ("/all-events." ++ e)) with (ToAll e) by (destruct He as [<-|[<-|[<-|[]]]]; reflexivity).
    unfold read_with. now rewrite E.
  - destruct H as (_ & H0 & Hn & Hj & e & He & Ha). unfold http_step.
    rewrite (route_types q ts e H0 Hn Hj (ext_extension e He) Ha). unfold read_with. now rewrite E.
  - congruence.
Qed.

Lemma life_ok of_lit print c : codec_ok c -> codec_total c -> forall hs ds, Forall2 happens hs ds ->
  Forall tidy (flat_map wish_of ds) -> forall (st : ldb) L (stuck : Prop), D c (h_db (s_h st)) L -> (stuck \/ is_quiet st) ->
  l_last L + all_new (flat_map wish_of ds) < two64 ->
  exists b, life (stored of_lit print) stuck (book_of L) ds (witnessed of_lit print c st hs) b.
Proof.
  intros Hc Ht hs ds H. induction H as [|h d hs ds Hh _ IH]; intros Hti st L stuck HD Hq Hsm; cbn [witnessed].
  { eexists. constructor. }
  destruct h as [q|q k|], d as [w|w|]; cbn [happens] in Hh; try contradiction; cbn [flat_map wish_of app] in Hti, Hsm.
  - inversion Hti as [|? ? Hti1 Hti2]; subst. cbn [all_new] in Hsm.
    assert (Hw : w = Nonsense \/ w <> Nonsense) by (destruct w; auto; right; discriminate). destruct Hw as [->|Hw].
    + destruct (nonsense_refused of_lit print ldb (ldb_step c) st q Hh) as (body & ->).
      destruct (IH Hti2 st L (stuck \/ delete_refused_by Nonsense (Answer 400 body)) HD ltac:(tauto) ltac:(cbn in Hsm; lia)) as (b & Hb).
      exists b. eapply answered; [apply refused|exact Hb].
    + pose proof (call_clean of_lit print q w Hh Hti1 Hw) as Hcl.
      assert (Hadd : added (call_of of_lit print q w) = new_events w).
      { destruct w; cbn; try reflexivity. now rewrite stamped_length, map_length. }
      destruct (exec_step c L (call_of of_lit print q w) Ht) as [Hs Ef].
      pose proof (log_exec_last c L (call_of of_lit print q w)) as Hlast.
      destruct (log_serves of_lit print c L q w _ _ Ht Hh Hw Hs (or_introl eq_refl)) as [S1 S2].
      pose proof (step_any c Hc st L (call_of of_lit print q w) HD Hcl ltac:(lia)) as Hst.
      pose proof (step_quiet c st (call_of of_lit print q w)) as Hsq.
      destruct (ldb_step c st (call_of of_lit print q w)) as [st' y] eqn:E. cbn [fst snd] in Hst, Hsq.
      destruct Hst as [[-> Es]|[-> HD']].
      * rewrite (blocked_call of_lit print ldb (ldb_step c) st q w st' Hh Hw E).
        assert (Hstuck : stuck) by (destruct Hq as [Hq|Hq]; [exact Hq|]; now destruct (proj1 (Hsq Hq))).
        rewrite <- Es in HD. destruct (IH Hti2 st' L stuck HD (or_introl Hstuck) ltac:(lia)) as (b & Hb).
        exists b. now apply hung.
      * rewrite (http_calls of_lit print ldb (ldb_step c) st q w st' _ Hh Hw E S2).
        rewrite <- Ef in S1. set (a := reply w (snd (log_exec c L (call_of of_lit print q w)))) in *.
        destruct (IH Hti2 st' _ (stuck \/ delete_refused_by w a) HD') as (b & Hb); [|lia|exists b; eapply answered; [exact S1|exact Hb]].
        destruct Hq as [Hq|Hq]; [left; now left|]. destruct (Hsq Hq) as [_ [Hr|Hq']]; [|now right].
        left. right. unfold a. destruct w as [name ex es|name n|name| |ts|]; cbn [call_of refused_delete] in Hr; try contradiction.
        cbn [call_of] in *. destruct (snd (log_exec c L (OpDelete n name None))) as [|[] | | | | |]; try contradiction;
          cbn [reply failed delete_refused_by]; intros body K; discriminate K.
  - inversion Hti as [|? ? Hti1 Hti2]; subst. cbn [all_new] in Hsm. unfold dies_in.
    assert (Hw : w = Nonsense \/ w <> Nonsense) by (destruct w; auto; right; discriminate). destruct Hw as [->|Hw].
    + destruct (nonsense_refused of_lit print ldb (fun s o => (ldb_crash c s o k, OutBlocked)) st q Hh) as (body & ->). cbn [fst].
      destruct (IH Hti2 (ldb_reopen st) L False HD (or_intror (conj eq_refl eq_refl)) ltac:(cbn in Hsm; lia)) as (b & Hb).
      exists b. now apply struck_before.
    + rewrite (blocked_call of_lit print ldb (fun s o => (ldb_crash c s o k, OutBlocked)) st q w _ Hh Hw eq_refl). cbn [fst].
      pose proof (call_clean of_lit print q w Hh Hti1 Hw) as Hcl.
      assert (Hadd : added (call_of of_lit print q w) = new_events w).
      { destruct w; cbn; try reflexivity. now rewrite stamped_length, map_length. }
      destruct (exec_step c L (call_of of_lit print q w) Ht) as [Hs Ef].
      pose proof (log_exec_last c L (call_of of_lit print q w)) as Hlast.
      destruct (log_serves of_lit print c L q w _ _ Ht Hh Hw Hs (or_introl eq_refl)) as [S1 S2].
      pose proof (step_any c Hc st L (call_of of_lit print q w) HD Hcl ltac:(lia)) as Hst.
      set (o := call_of of_lit print q w) in *. set (st1 := ldb_crash c st o k).
      assert (HC : D c (h_db (s_h st1)) L \/ D c (h_db (s_h st1)) (fst (log_exec c L o))).
      { unfold st1. destruct (crash_atomic c st o k) as [->| ->]; auto. destruct Hst as [[_ ->]|[_ K]]; auto. }
      destruct HC as [HC|HC].
      * destruct (IH Hti2 (ldb_reopen st1) L False HC (or_intror (conj eq_refl eq_refl)) ltac:(lia)) as (b & Hb).
        exists b. now apply struck_before.
      * destruct (IH Hti2 (ldb_reopen st1) _ False HC (or_intror (conj eq_refl eq_refl)) ltac:(lia)) as (b & Hb).
        exists b. rewrite <- Ef in S1. eapply struck_after; [exact S1|exact Hb].
  - destruct (IH Hti (ldb_reopen st) L False HD (or_intror (conj eq_refl eq_refl)) Hsm) as (b & Hb).
    exists b. now apply rebooted.
Qed.

(** C100: any requests, crashes in the middle of requests and restarts, from an empty
    LevelDB store on, with no "$!" in the names and fewer than 2^64 events posted: the
    clients see what they would see of the list of events in HttpCrashSpec.v. *)
Theorem C100_lives_partial : forall of_lit print c hs ds, codec_ok c -> codec_total c -> Forall2 happens hs ds ->
  Forall tidy (flat_map wish_of ds) -> all_new (flat_map wish_of ds) < 18446744073709551616 ->
  exists b, life (fun j => print (decode of_lit false j)) False empty_book ds (witnessed of_lit print c ldb_init hs) b.
Proof.
  intros of_lit print c hs ds Hc Ht H Hti Hn.
  exact (life_ok of_lit print c Hc Ht hs ds H Hti ldb_init empty_log False (D_init c) (or_intror (conj eq_refl eq_refl)) Hn).
Qed.
Print Assumptions C100_lives_partial.

(** In particular, whatever happened before: a post that was answered with 201 is found,
    at its place and whole, by every later read of its stream, however often the process
    died in between, unless the stream was to be deleted. *)
Definition spares (name : string) (d : deed) : Prop := forall n, ~ In (Delete name n) (wish_of d).
Definition asked_in (ds : list deed) : nat := length (filter (fun d => match d with Wanted _ => true | _ => false end) ds).

Lemma keeps_stream show b w a b1 name : served show b w a b1 -> (forall n, w <> Delete name n) ->
  exists new, stream_of name b1 = stream_of name b ++ new.
Proof.
  intros S K. inversion S; subst; try (exists []; now rewrite app_nil_r).
  - exists (filter (fun r => String.eqb (r_stream r) name) new). unfold stream_of. cbn [events]. apply filter_app.
  - exists []. rewrite app_nil_r. unfold stream_of. cbn [events].
    match goal with |- filter _ (filter (fun r => negb (String.eqb _ ?m)) _) = _ => assert (m <> name) by (intros ->; eapply K; reflexivity) end.
    clear S. induction (events b) as [|r l IH]; [reflexivity|]. cbn [filter]. destruct (String.eqb_spec (r_stream r) name0) as [E|E]; cbn [negb filter].
    + rewrite E, (proj2 (String.eqb_neq name0 name)) by assumption. exact IH.
    + destruct (String.eqb (r_stream r) name); now rewrite IH.
Qed.

Lemma life_split show ds1 : forall stuck b ds2 l b2, life show stuck b (ds1 ++ ds2) l b2 ->
  exists l1 l2 stuck' b1, l = l1 ++ l2 /\ length l1 = asked_in ds1 /\ life show stuck b ds1 l1 b1 /\ life show stuck' b1 ds2 l2 b2.
Proof.
  induction ds1 as [|d ds1 IH]; intros stuck b ds2 l b2 H; cbn [app] in H.
  - exists [], l, stuck, b. repeat split; try assumption. constructor.
  - inversion H as [|? ? w a b1 ? l' ? S K|? ? w ? l' ? St K|? ? w ? ? ? K|? ? w a b1 ? ? ? S K|? ? ? ? ? K]; subst;
      destruct (IH _ _ _ _ _ K) as (l1 & l2 & stuck' & b3 & -> & E & A & B).
    + exists (a :: l1), l2, stuck', b3. repeat split; [cbn; f_equal; exact E| |exact B]. eapply answered; eassumption.
    + exists (NoAnswer :: l1), l2, stuck', b3. repeat split; [cbn; f_equal; exact E| |exact B]. now apply hung.
    + exists l1, l2, stuck', b3. repeat split; [exact E| |exact B]. now apply struck_before.
    + exists l1, l2, stuck', b3. repeat split; [exact E| |exact B]. eapply struck_after; eassumption.
    + exists l1, l2, stuck', b3. repeat split; [exact E| |exact B]. now apply rebooted.
Qed.

Lemma life_keeps show name ds : Forall (spares name) ds -> forall stuck b l b2, life show stuck b ds l b2 ->
  exists new, stream_of name b2 = stream_of name b ++ new.
Proof.
  intros F stuck b l b2 H. induction H as [|? ? w a b1 ? ? ? S K IH|? ? w ? ? ? St K IH|? ? w ? ? ? K IH|? ? w a b1 ? ? ? S K IH|? ? ? ? ? K IH].
  { exists []. now rewrite app_nil_r. }
  all: inversion F as [|? ? F1 F2]; subst; destruct (IH F2) as (new & ->).
  2,3,5: now exists new.
  all: destruct (keeps_stream show b w a b1 name S) as (new' & ->);
    [intros n ->; apply (F1 n); now left|exists (new' ++ new); now rewrite app_assoc].
Qed.

Theorem C100_acknowledged_is_durable_partial : forall of_lit print c hs1 ds1 q name ex es hs2 ds2 g l1 body l2 now,
  codec_ok c -> codec_total c ->
  let hs := hs1 ++ Asked q :: hs2 ++ [Asked g] in
  let ds := ds1 ++ Wanted (Post name ex es) :: ds2 ++ [Wanted (GetStream name)] in
  Forall2 happens hs ds -> Forall tidy (flat_map wish_of ds) -> all_new (flat_map wish_of ds) < 18446744073709551616 ->
  Forall (spares name) ds2 -> length l1 = asked_in ds1 -> length l2 = asked_in ds2 ->
  witnessed of_lit print c ldb_init hs = l1 ++ Answer 201 body :: l2 ++ [Records now] ->
  exists old new later, now = old ++ new ++ later
    /\ map said new = map (described_as (fun j => print (decode of_lit false j)) name) es
    /\ map r_ssn new = count (N.of_nat (length old)) (length es).
Proof.
  intros of_lit print c hs1 ds1 q name ex es hs2 ds2 g l1 body l2 now Hc Ht hs ds H Hti Hn Hsp E1 E2 E.
  destruct (C100_lives_partial of_lit print c hs ds Hc Ht H Hti Hn) as (b & S). rewrite E in S. unfold ds in S.
  apply life_split in S as (l1' & r & stuck & b1 & Er & K1 & _ & S).
  assert (Er' : l1 = l1' /\ Answer 201 body :: l2 ++ [Records now] = r).
  { rewrite <- K1 in E1. clear - Er E1. revert l1' Er E1. induction l1 as [|a l1 IH]; intros [|a' l1'] Er E1; try discriminate; [auto|].
    cbn in Er. injection Er as -> Er. destruct (IH l1' Er ltac:(cbn in E1; congruence)) as [-> ->]. auto. }
  destruct Er' as [-> <-]. clear Er.
  inversion S as [|? ? w a b2 ? l' ? Sv K| | | |]; subst.
  inversion Sv as [? ? ? new gg bod Hex Hsaid Hssn Hgsn Hgg Htell| | | | | | | |]; subst. clear S Sv.
  apply life_split in K as (l2' & r & stuck2 & b3 & Er & K2 & Mid & S).
  assert (Er' : l2 = l2' /\ [Records now] = r).
  { rewrite <- K2 in E2. clear - Er E2. revert l2' Er E2. induction l2 as [|a l2 IH]; intros [|a' l2'] Er E2; try discriminate; [auto|].
    cbn in Er. injection Er as -> Er. destruct (IH l2' Er ltac:(cbn in E2; congruence)) as [-> ->]. auto. }
  destruct Er' as [-> <-]. clear Er.
  inversion S as [|? ? w a b4 ? l' ? Sv K| | | |]; subst. inversion Sv; subst.
  destruct (life_keeps _ name ds2 Hsp _ _ _ _ Mid) as (later & EL).
  exists (stream_of name b1), new, later. split; [|split; [exact Hsaid|exact Hssn]].
  rewrite EL. unfold stream_of at 1. cbn [events]. rewrite filter_app, <- app_assoc. f_equal. f_equal.
  apply filter_all. intros r Hr.
  assert (K' : In (said r) (map said new)) by now apply in_map. rewrite Hsaid in K'. apply in_map_iff in K' as (e & K' & _).
  injection K' as <- _ _ _ _ _. apply String.eqb_refl.
Qed.
Print Assumptions C100_acknowledged_is_durable_partial.

(** A life: a post; a delete with the wrong number; a post that hangs; the process dies
    in it; a post during which it dies before the commit, and one during which it dies
    after it; a read of all. *)
Definition p1 (n : string) : request := post "/save-events/thing!x" n (Some (JArr [ev_json "thing" "x" "a"])).
Definition eventful : list (happening * deed) :=
  [ (Asked (p1 ""), Wanted (Post "thing!x" None [told]))
  ; (Asked (post "/delete-stream/other!y" "9" None), Wanted (Delete "other!y" 9))
  ; (Asked (p1 ""), Wanted (Post "thing!x" None [told]))
  ; (Restarted, Rebooted)
  ; (DiedIn (p1 "") 1, Interrupted (Post "thing!x" None [told]))
  ; (DiedIn (p1 "1") 9, Interrupted (Post "thing!x" (Some 1) [told]))
  ; (Asked (post "/events-by-stream/thing!x.json" "" None), Wanted (GetStream "thing!x")) ].

(** So: not every request is answered; after a restart they are again. *)
Theorem C100_every_request_is_answered_refuted : exists hs ds, Forall2 happens hs ds /\ Forall tidy (flat_map wish_of ds) /\
  (let l := witnessed (fun s => FOther s) show_value toy ldb_init hs in
   nth_error l 2 = Some NoAnswer /\ exists r1 r2, nth_error l 3 = Some (Records [r1; r2]) /\ map r_ssn [r1; r2] = [1; 2])
  /\ (exists t, nth_error (witnessed (fun s => FOther s) show_value toy ldb_init hs) 1 = Some (Answer 404 t)).
Proof.
  exists (map fst eventful), (map snd eventful). split; [|split; [|split]].
  - assert (P : forall n ex, expects n ex -> says (p1 n) (Post "thing!x" ex [told])).
    { intros n ex Hn. split; [address|]. split; [spell|]. split; [reflexivity|]. split; [reflexivity|]. split.
      { eexists. split; [reflexivity|]. repeat (apply Forall2_cons; [apply ev_json_describes|]). apply Forall2_nil. }
      split; [discriminate|]. split; [apply alone|exact Hn]. }
    unfold eventful. cbn [map fst snd]. repeat (apply Forall2_cons); [| | | | | | |apply Forall2_nil]; cbn [happens].
    + apply P. reflexivity.
    + split; [address|]. split; [spell|]. split; [reflexivity|]. left. apply parse_reads. reflexivity.
    + apply P. reflexivity.
    + exact Logic.I.
    + apply P. reflexivity.
    + apply P. apply parse_reads. reflexivity.
    + split; [discriminate|]. split; [reflexivity|]. exists "json". split; [cbn; auto|spell].
  - assert (A : clean "thing!x") by (apply (clean_by_check _ 7); vm_compute; auto).
    assert (B : clean "other!y") by (apply (clean_by_check _ 7); vm_compute; auto).
    assert (C : clean "thing") by (apply (clean_by_check _ 5); vm_compute; auto).
    cbn [eventful map snd flat_map wish_of app]. repeat constructor; assumption.
  - split; [vm_compute; reflexivity|]. eexists _, _. split; vm_compute; reflexivity.
  - eexists. vm_compute. reflexivity.
Qed.
Print Assumptions C100_every_request_is_answered_refuted.

Example C100_inhabited :
  let hs := map fst eventful in let ds := map snd eventful in
  (exists hs2 g ds2, hs = [] ++ Asked (p1 "") :: hs2 ++ [Asked g]
    /\ ds = [] ++ Wanted (Post "thing!x" None [told]) :: ds2 ++ [Wanted (GetStream "thing!x")] /\ asked_in ds2 = 2%nat
    /\ Forall (spares "thing!x") ds2)
  /\ exists body a r, witnessed (fun s => FOther s) show_value toy ldb_init hs = [] ++ Answer 201 body :: [a; NoAnswer] ++ [Records r].
Proof.
  split.
  - eexists [_; _; _; _; _], _, [_; _; _; _; _]. split; [reflexivity|]. split; [reflexivity|]. split; [reflexivity|].
    repeat constructor; intros n K; cbn in K; intuition discriminate.
  - eexists _, _, _. vm_compute. reflexivity.
Qed.
