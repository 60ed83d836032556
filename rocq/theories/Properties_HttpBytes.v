(** C102: the HTTP server as a notebook, bytes in and bytes out. *)
From Coq Require Import ZArith Permutation.
From Verif Require Import Base Core CoreSpec CoreProofs LogSpec LogProofs StoreSpec ToyCodec InMemory InMemoryProofs
  DecText Text PathSpec PathProofs NumberSpec NumberProofs Json JsonSpec JsonProofs JsonText JsonTextSpec JsonTextProofs JsonGrammar JsonGrammarProofs JsonGrammarReads
  RecordIo RecordIoSpec RecordIoProofs JsonRecordSpec Properties_JsonGrammar Remote Http HttpSpec HttpProofs HttpStorySpec HttpStoryProofs Properties_Http
  LevelDB LevelDBSpec LevelDBProofs LevelDBRun Properties_LevelDB Properties_HttpStory HttpBytes HttpBytesSpec HttpBytesJson PatchCodec HttpBytesProofs.
Import RecordIo JsonGrammar HttpStorySpec.
Open Scope string_scope.
Open Scope list_scope.
Open Scope N_scope.

Section Tales.
Variables (of_lit : string -> float) (show : float -> num) (packed : list entry -> string).
Hypothesis Hback : forall n, number n -> number (show (float_of of_lit n)).
Notation js := (json_serializer show).
Notation back := (fun n => show (float_of of_lit n)).

Lemma bytes_http St store s q s' a : http_step of_lit (text_of_value show) St store s (request_of q) = (s', a) ->
  bytes_step of_lit show packed St store s q = (s', in_bytes show packed q a).
Proof. unfold bytes_step. now intros ->. Qed.

Lemma mem_tale qs ws : Forall2 wants qs ws -> Forall sane_stamps qs -> forall m L b, InMemoryProofs.R (patched js) m L -> plain_mem m ->
  pairs of_lit show (book_of L) b -> l_last L + all_new ws < 2 ^ 64 ->
  exists b', tale back b qs ws (answers (bytes_step of_lit show packed mem (mem_step js)) m qs) b'.
Proof.
  pose proof (patched_ok js (unmarked_json show)) as Hc. pose proof (patched_total js) as Ht.
  intros H. induction H as [|q w qs ws Hq _ IH]; intros Hst m L b HR Hpl HP Hl; cbn [answers].
  { eexists. constructor. }
  inversion Hst as [|? ? Hst1 Hst2]; subst. cbn [all_new] in Hl. pose proof (wants_says q w Hq) as Hsays.
  assert (Hw : w = Nonsense \/ w <> Nonsense) by (destruct w; auto; right; discriminate). destruct Hw as [->|Hw].
  - destruct (nonsense_refused of_lit (text_of_value show) mem (mem_step js) m (request_of q) Hsays) as (body & E).
    rewrite (bytes_http _ _ _ _ _ _ E).
    destruct (IH Hst2 m L b HR Hpl HP) as (b' & Hb). { cbn [new_events] in Hl. lia. }
    exists b'. econstructor; [apply a_refused|exact Hb].
  - assert (Hp : plain_call (patched js) (call_of of_lit (text_of_value show) (request_of q) w)).
    { destruct w as [name ex es|name n|name| |ts|]; cbn [says call_of plain_call] in *; try exact Logic.I.
      - split; [apply stamped_aggregate; apply Hsays|]. split; [now left|]. now left.
      - apply Hsays. }
    destruct (InMemoryProofs.step_ok _ Hc m L _ HR Hp) as (x & Hs & Ha & HR').
    destruct (written_works of_lit show Hback L b q w HP (R_log _ _ _ HR) Hq Hst1 ltac:(lia)) as [_ Hwk].
    destruct (mem_same js (unmarked_json show) m L _ HR Hpl Hwk) as [Em Hpl']. rewrite <- Em in Ha, HR'.
    destruct (mem_step js m (call_of of_lit (text_of_value show) (request_of q) w)) as [m' y] eqn:E. cbn [fst snd] in *.
    destruct (log_answers of_lit show packed Hback L b q w x y HP (R_log _ _ _ HR) Hq Hst1 ltac:(lia) Hw Hs Ha) as ((b1 & S1 & HP1) & Hl1 & S2).
    rewrite (bytes_http _ _ _ _ _ _ (http_calls of_lit (text_of_value show) mem (mem_step js) m _ w m' y Hsays Hw E S2)).
    destruct (IH Hst2 m' _ b1 HR' Hpl' HP1 ltac:(lia)) as (b' & Hb). exists b'. econstructor; [exact S1|exact Hb].
Qed.

Lemma pairs_work L b : pairs of_lit show (book_of L) b -> Forall (works js) (l_recs L).
Proof. intros [_ H]. cbn [book_of events] in H. induction H as [|r n rs ns Hm _ IH]; constructor; [now apply (matches_works of_lit show Hback r n)|exact IH]. Qed.

Lemma ldb_tale qs ws : Forall2 wants qs ws -> Forall sane_stamps qs -> Forall tidy ws -> forall d L b, D (patched js) d L ->
  pairs of_lit show (book_of L) b -> l_last L + all_new ws < 2 ^ 64 ->
  none_refused ws (answers (bytes_step of_lit show packed ldb (ldb_step js)) (mk_ldb (quiet d) false) qs) ->
  exists b', tale back b qs ws (answers (bytes_step of_lit show packed ldb (ldb_step js)) (mk_ldb (quiet d) false) qs) b'.
Proof.
  pose proof (patched_ok js (unmarked_json show)) as Hc. pose proof (patched_total js) as Ht.
  intros H. induction H as [|q w qs ws Hq _ IH]; intros Hst Hti d L b HD HP Hl; cbn [answers].
  { intros _. eexists. constructor. }
  inversion Hst as [|? ? Hst1 Hst2]; subst. inversion Hti as [|? ? Hti1 Hti2]; subst. cbn [all_new] in Hl. pose proof (wants_says q w Hq) as Hsays.
  assert (Hw : w = Nonsense \/ w <> Nonsense) by (destruct w; auto; right; discriminate). destruct Hw as [->|Hw].
  - destruct (nonsense_refused of_lit (text_of_value show) ldb (ldb_step js) (mk_ldb (quiet d) false) (request_of q) Hsays) as (body & E).
    rewrite (bytes_http _ _ _ _ _ _ E). cbn [none_refused]. intros Hdel.
    destruct (IH Hst2 Hti2 d L b HD HP ltac:(cbn [new_events] in Hl; lia) Hdel) as (b' & Hb). exists b'. econstructor; [apply a_refused|exact Hb].
  - pose proof (call_clean of_lit (text_of_value show) _ w Hsays Hti1 Hw) as Hcl.
    assert (Hadd : added (call_of of_lit (text_of_value show) (request_of q) w) = new_events w).
    { destruct w; cbn; try reflexivity. now rewrite stamped_length, map_length. }
    destruct (exec_step (patched js) L (call_of of_lit (text_of_value show) (request_of q) w) Ht) as [Hs Ef].
    destruct (written_works of_lit show Hback L b q w HP (D_ok _ _ _ HD) Hq Hst1 ltac:(lia)) as [_ Hwk].
    pose proof (ldb_same js (unmarked_json show) d L _ false HD (pairs_work L b HP) Hcl ltac:(rewrite Hadd; change two64 with (2 ^ 64); lia) Hwk) as Em.
    set (o := call_of of_lit (text_of_value show) (request_of q) w) in *. set (x := snd (log_exec (patched js) L o)) in *.
    destruct (log_answers of_lit show packed Hback L b q w x x HP (D_ok _ _ _ HD) Hq Hst1 ltac:(lia) Hw Hs (or_introl eq_refl)) as ((b1 & S1 & HP1) & Hl1 & S2).
    fold o in HP1, Hl1.
    destruct (LevelDBProofs.step_ok _ Hc d L o HD Hcl ltac:(change two64 with (2 ^ 64); lia)) as [(d' & E & HD')|(Hr & _ & E)]; fold x in E; rewrite <- Em in E.
    + rewrite (bytes_http _ _ _ _ _ _ (http_calls of_lit (text_of_value show) ldb (ldb_step js) _ _ w _ x Hsays Hw E S2)).
      intros Hdel. rewrite Ef in HD'. destruct (IH Hst2 Hti2 d' _ b1 HD' HP1 ltac:(lia)) as (b' & Hb).
      { destruct w; cbn [none_refused] in Hdel; try exact Hdel. apply Hdel. }
      exists b'. econstructor; [exact S1|]. exact Hb.
    + rewrite (bytes_http _ _ _ _ _ _ (http_calls of_lit (text_of_value show) ldb (ldb_step js) _ _ w _ x Hsays Hw E S2)). intros Hdel. exfalso. change (refused_delete o x) in Hr. clearbody x.
      destruct w as [name ex es|name n|name| |ts|]; unfold o in Hr; cbn [call_of refused_delete] in Hr; try contradiction.
      cbn [none_refused] in Hdel. destruct Hdel as [(body & K) _]. destruct x as [|[] | | | | |]; try contradiction; cbn [reply failed in_bytes] in K; discriminate K.
Qed.
End Tales.

(** * A value is given back in one way *)

Lemma member_in {A} k (x : A) l : last_member k l = Some x -> In (k, x) l.
Proof.
  induction l as [|[k' y] l IH]; [discriminate|]. cbn [last_member]. destruct (last_member k l) as [z|].
  - intros [= ->]. right. now apply IH.
  - destruct (String.eqb_spec k k') as [->|]; [|discriminate]. intros [= ->]. now left.
Qed.
Lemma sorted_same (l l' : list (string * json)) : keys_sorted l -> keys_sorted l' ->
  (forall k, last_member k l = last_member k l') -> l = l'.
Proof.
  revert l'. induction l as [|[k x] l IH]; intros [|[k' x'] l'] Hs Hs' H; [reflexivity| | |].
  - specialize (H k'). cbn [last_member] in H. rewrite String.eqb_refl in H. destruct (last_member k' l'); discriminate H.
  - specialize (H k). cbn [last_member] in H. rewrite String.eqb_refl in H. destruct (last_member k l); discriminate H.
  - pose proof (JsonProofs.sorted_below _ _ _ Hs) as B. pose proof (JsonProofs.sorted_below _ _ _ Hs') as B'.
    assert (N : forall q z, last_member q l = Some z -> String.compare k q = Lt) by (intros q z Hz; exact (B _ _ (member_in _ _ _ Hz))).
    assert (N' : forall q z, last_member q l' = Some z -> String.compare k' q = Lt) by (intros q z Hz; exact (B' _ _ (member_in _ _ _ Hz))).
    assert (E : k = k').
    { pose proof (H k) as H1. pose proof (H k') as H2. cbn [last_member] in H1, H2. rewrite String.eqb_refl in H1, H2.
      destruct (last_member k' l') eqn:E1; [pose proof (N' _ _ E1) as K; rewrite JsonProofs.compare_refl in K; discriminate K|].
      destruct (last_member k l) eqn:E2; [pose proof (N _ _ E2) as K; rewrite JsonProofs.compare_refl in K; discriminate K|].
      destruct (last_member k l') as [z|] eqn:E3.
      - destruct (last_member k' l) as [z'|] eqn:E4.
        + pose proof (N' _ _ E3) as K. pose proof (N _ _ E4) as K'. apply JsonProofs.compare_gt in K. congruence.
        + destruct (String.eqb_spec k' k); [congruence|discriminate H2].
      - destruct (String.eqb_spec k k'); [assumption|discriminate H1]. }
    subst k'.
    assert (Z : forall q, last_member q l = last_member q l').
    { intros q. specialize (H q). cbn [last_member] in H. destruct (last_member q l) eqn:E1; destruct (last_member q l') eqn:E2; try congruence.
      - destruct (String.eqb_spec q k) as [->|]; [|discriminate H]. pose proof (N _ _ E1) as K. rewrite JsonProofs.compare_refl in K. discriminate K.
      - destruct (String.eqb_spec q k) as [->|]; [|discriminate H]. pose proof (N' _ _ E2) as K. rewrite JsonProofs.compare_refl in K. discriminate K. }
    assert (x = x').
    { specialize (H k). cbn [last_member] in H. rewrite String.eqb_refl, <- Z in H. destruct (last_member k l) eqn:E1; [|congruence].
      pose proof (N _ _ E1) as K. rewrite JsonProofs.compare_refl in K. discriminate K. }
    subst x'. f_equal. apply IH; [exact (sorted_tail _ _ _ Hs)|exact (sorted_tail _ _ _ Hs')|exact Z].
Qed.

Lemma places_same {A} (l l' : list A) : (forall i, nth_error l i = nth_error l' i) -> l = l'.
Proof.
  revert l'. induction l as [|x l IH]; intros [|x' l'] H; [reflexivity|discriminate (H 0%nat)|discriminate (H 0%nat)|].
  pose proof (H 0%nat) as H0. injection H0 as <-. f_equal. apply IH. intros i. exact (H (S i)).
Qed.

Lemma echoes_one back j a : echoes back j a -> forall a', echoes back j a' -> a = a'.
Proof.
  induction 1 as [|b|n|s|l l' Hl _ IH|ms l Hs Hn _ IH]; intros a' H'; inversion H' as [| | | |? l2 Hl2 H2|? l2 Hs2 Hn2 H2]; subst; try reflexivity; f_equal.
  - apply places_same. intros i. destruct (nth_error l i) as [x|] eqn:E.
    + assert (i < length l)%nat by (apply nth_error_Some; congruence).
      destruct (nth_error l' i) as [y|] eqn:E'; [|apply nth_error_None in E'; lia]. destruct (nth_error l2 i) as [z|] eqn:E2; [|apply nth_error_None in E2; lia].
      f_equal. apply (IH i x y E E' z). exact (H2 i x z E E2).
    + apply nth_error_None in E. rewrite (proj2 (nth_error_None l' i)) by lia. symmetry. apply nth_error_None. lia.
  - apply sorted_same; [exact Hs|exact Hs2|]. intros k. specialize (Hn k). specialize (Hn2 k).
    destruct (last_member k ms) as [x|] eqn:E.
    + destruct (last_member k l) as [y|] eqn:E'; [|destruct Hn as [_ Hn]; discriminate (Hn eq_refl)].
      destruct (last_member k l2) as [z|] eqn:E2; [|destruct Hn2 as [_ Hn2]; discriminate (Hn2 eq_refl)].
      f_equal. apply (IH k x y E E' z). exact (H2 k x z E E2).
    + rewrite (proj1 Hn eq_refl), (proj1 Hn2 eq_refl). reflexivity.
Qed.
Lemma shows_one back o o' n : shows back o n -> shows back o' n -> o = o'.
Proof.
  intros (d & m & -> & Hd & Hm) (d' & m' & -> & Hd' & Hm'). now rewrite (echoes_one _ _ _ Hd _ Hd'), (echoes_one _ _ _ Hm _ Hm').
Qed.
Lemma shown_one back os os' ns : Forall2 (shows back) os ns -> Forall2 (shows back) os' ns -> os = os'.
Proof.
  intros H. revert os'. induction H as [|o n os ns Ho _ IH]; intros os' H'; inversion H' as [|o' ? os1 ? Ho' Hos']; subst; [reflexivity|].
  f_equal; [exact (shows_one _ _ _ _ Ho Ho')|now apply IH].
Qed.

(** C102: any requests that want something, and any that make no sense, one after the
    other, to a server in front of an empty in-memory store.  The bytes of their bodies
    and the bytes of the answers are as with the notebook in HttpBytesSpec.v.  What a
    float64 is and how it is written is left open, but for that it is written as a
    number. *)
Theorem C102_bytes : forall of_lit show packed qs ws, (forall n, number n -> number (show (float_of of_lit n))) ->
  Forall2 wants qs ws -> Forall sane_stamps qs -> all_new ws < 2 ^ 64 ->
  exists b, tale (fun n => show (float_of of_lit n)) empty_notebook qs ws
              (answers (bytes_step of_lit show packed mem (mem_step (json_serializer show))) mem_init qs) b.
Proof.
  intros of_lit show packed qs ws Hb H Hst Hn. apply (mem_tale of_lit show packed Hb qs ws H Hst mem_init empty_log); [apply R_init|apply plain_init| |exact Hn].
  split; [reflexivity|constructor].
Qed.
Print Assumptions C102_bytes.

(** ... and to one in front of an empty LevelDB store, as long as no delete is refused
    (C18: after a refused one nothing can be saved any more) and the names do not hold
    "$!". *)
Theorem C102_bytes_leveldb_partial : forall of_lit show packed qs ws, (forall n, number n -> number (show (float_of of_lit n))) ->
  Forall2 wants qs ws -> Forall sane_stamps qs -> all_new ws < 2 ^ 64 -> Forall tidy ws ->
  let l := answers (bytes_step of_lit show packed ldb (ldb_step (json_serializer show))) ldb_init qs in
  none_refused ws l ->
  exists b, tale (fun n => show (float_of of_lit n)) empty_notebook qs ws l b.
Proof.
  intros of_lit show packed qs ws Hb H Hst Hn Hti l Hd. apply (ldb_tale of_lit show packed Hb qs ws H Hst Hti [] empty_log); [apply D_init| |exact Hn|exact Hd].
  split; [reflexivity|constructor].
Qed.
Print Assumptions C102_bytes_leveldb_partial.

(** In particular: the JSON array read after a post is the one read before it, with an
    object behind it for each event of the post. *)
Theorem C102_posted_is_read : forall of_lit show packed qs ws q g name ex es earlier old body now,
  (forall n, number n -> number (show (float_of of_lit n))) ->
  Forall2 wants qs ws -> wants q (Post name ex es) -> wants g (GetStream name) -> in_format g "json" ->
  Forall sane_stamps qs -> sane_stamps q -> sane_stamps g -> all_new ws + N.of_nat (length es) < 2 ^ 64 -> length earlier = length qs ->
  answers (bytes_step of_lit show packed mem (mem_step (json_serializer show))) mem_init (qs ++ [g; q; g])
    = earlier ++ [Bytes 200 old; Bytes 201 body; Bytes 200 now] ->
  exists os new before_, text_of 10000 (JArr os) old /\ text_of 10000 (JArr (os ++ new)) now
    /\ Forall2 (shows (fun n => show (float_of of_lit n))) new (numbered name (w_stamp q) 0 (N.of_nat (length os)) before_ es).
Proof.
  intros of_lit show packed qs ws q g name ex es earlier old body now Hb H Hq Hg Hf S1 S2 S3 Hn Hl E.
  assert (HF : Forall2 wants (qs ++ [g; q; g]) (ws ++ [GetStream name; Post name ex es; GetStream name])).
  { apply Forall2_app; [exact H|]. repeat (apply Forall2_cons; [assumption|]). apply Forall2_nil. }
  assert (HN : all_new (ws ++ [GetStream name; Post name ex es; GetStream name]) < 2 ^ 64).
  { clear - Hn. assert (forall a b, all_new (a ++ b) = all_new a + all_new b) as -> by (induction a as [|w a IH]; intros b; cbn [app all_new]; [reflexivity|rewrite IH; lia]).
    cbn [all_new new_events]. lia. }
  destruct (C102_bytes of_lit show packed _ _ Hb HF ltac:(apply Forall_app; auto) HN) as (b & S). rewrite E in S.
  clear E HF Hg HN Hn S1 S2 S3 Hq. revert earlier Hl S. generalize empty_notebook.
  induction H as [|q0 w qs ws _ _ IH]; intros b0 [|a earlier] Hl S; try discriminate; cbn [app] in S.
  - inversion S as [|? ? ? ? b1 ? ? ? ? T1 S']; subst. inversion T1 as [| | | | |? ? P1| | |]; subst. clear S T1.
    inversion S' as [|? ? ? ? b2 ? ? ? ? T2 S'']; subst. inversion T2 as [? ? ? ? Hex Htell| | | | | | | |]; subst. clear S' T2.
    inversion S'' as [|? ? ? ? b3 ? ? ? ? T3 _]; subst. inversion T3 as [| | | | |? ? P3| | |]; subst.
    destruct P1 as [P1 _]. destruct (P1 Hf) as (os & Tos & Sos). destruct P3 as [P3 _]. destruct (P3 Hf) as (os' & Tos' & Sos').
    assert (En : notes_of name (mk_notebook (notes b1 ++ numbered name (w_stamp q) 0 (how_many name b1) (total b1) es) (total b1 + N.of_nat (length es)))
                 = notes_of name b1 ++ numbered name (w_stamp q) 0 (how_many name b1) (total b1) es).
    { unfold notes_of at 1. cbn [notes]. rewrite filter_app. f_equal. apply filter_all. intros n. generalize 0%nat, (how_many name b1), (total b1).
      clear. induction es as [|e es IH]; intros i k g Hin; [destruct Hin|]. cbn [numbered] in Hin. destruct Hin as [<-|Hin]; [apply String.eqb_refl|exact (IH _ _ _ Hin)]. }
    rewrite En in Sos'. apply Forall2_app_inv_r in Sos' as (o1 & new & A1 & A2 & ->).
    assert (o1 = os) by exact (shown_one _ _ _ _ A1 Sos). subst o1. exists os, new, (total b1). split; [exact Tos|]. split; [exact Tos'|].
    rewrite (f2_length _ _ _ Sos). exact A2.
  - inversion S as [|? ? ? ? b1 ? ? ? ? T1 S']; subst. exact (IH b1 earlier ltac:(cbn in Hl; congruence) S').
Qed.
Print Assumptions C102_posted_is_read.

(** A history that meets the hypotheses: a post laid out freely, with a member given
    twice and something behind the array; one that is refused; one to another stream;
    reads in both formats; a post without a body; a delete. *)
Definition send (path expected body : string) : wire := mk_wire "POST" path "application/json" expected body (fun i => match i with O => ("id0", 7) | S _ => ("id1", 8) end) None.
Definition first_body : string :=
  " [ {""aggregateType"":""thing"" , ""aggregateID"":""x"",""eventType"":""E"",""data"":{""b"":1.50,""a"":[true, null],""b"":-2e3},""metadata"":null},
      {""data"":""<A>"",""aggregateType"":""thing"",""aggregateID"":""x"",""eventType"":""F"",""metadata"":{}}] etc".
Definition first_events : list client_event :=
  [ mk_client_event "thing" "x" "E" (JObj [("b", JNum (Lit "1.50")); ("a", JArr [JBool true; JNull]); ("b", JNum (Lit "-2e3"))]) JNull
  ; mk_client_event "thing" "x" "F" (JStr "<A>") (JObj []) ].
Definition other_body : string := "[{""aggregateType"":""other"",""aggregateID"":""y"",""eventType"":""E"",""data"":[],""metadata"":1}]".
Definition other_event : client_event := mk_client_event "other" "y" "E" (JArr []) (JNum (Int 1)).
Definition scene : list (wire * wish) :=
  [ (send "/save-events/thing!x" "" first_body, Post "thing!x" None first_events)
  ; (send "/save-events/other%21y" "7" other_body, Post "other!y" (Some 7) [other_event])
  ; (send "/save-events/other%21y" "0" other_body, Post "other!y" (Some 0) [other_event])
  ; (send "/events-by-stream/thing!x.json" "" "", GetStream "thing!x")
  ; (send "/save-events/thing!x" "" "", Nonsense)
  ; (send "/delete-stream/thing!x" "2" "", Delete "thing!x" 2)
  ; (send "/all-events.ndjson" "" "", GetAll) ].
Definition lit_float (s : string) : float := FOther s.
Definition lit_show (f : float) : num := match f with FInt z => Int z | FOther s => Lit s end.
Definition on_mem := bytes_step lit_float lit_show (fun _ => "") mem (mem_step (json_serializer lit_show)).
Definition on_ldb := bytes_step lit_float lit_show (fun _ => "") ldb (ldb_step (json_serializer lit_show)).

Lemma lit_back n : number n -> number (lit_show (float_of lit_float n)).
Proof. destruct n; exact (fun H => H). Qed.
Lemma reads_carries body l rest : read_value body = Some (JArr l, rest) -> carries body (Some (JArr l)).
Proof. intros H. apply read_says in H as (w & t & -> & Hw & Ht). exists w, t, rest. repeat (split; [reflexivity || assumption|]). discriminate. Qed.
Lemma empty_carries : carries "" None.
Proof.
  intros w t rest j E Hw Ht. apply JsonGrammarReads.text_head in Ht as (c & r & -> & _). destruct w; discriminate E.
Qed.

Example C102_inhabited : Forall2 wants (map fst scene) (map snd scene) /\ Forall sane_stamps (map fst scene) /\ Forall tidy (map snd scene)
  /\ (let l := answers on_mem mem_init (map fst scene) in
      nth_error l 0 = Some (Bytes 201 "{""status"":""OK"",""streamSequenceNumber"":2}")
      /\ (exists t, nth_error l 1 = Some (Bytes 409 t))
      /\ nth_error l 3 = Some (Bytes 200 ("[{""streamName"":""thing!x"",""aggregateType"":""thing"",""aggregateID"":""x"",""globalSequenceNumber"":1,""streamSequenceNumber"":1,""insertTimestamp"":7,""eventID"":""id0"",""eventType"":""E"",""data"":{""a"":[true,null],""b"":-2e3},""metadata"":null},"
           ++ "{""streamName"":""thing!x"",""aggregateType"":""thing"",""aggregateID"":""x"",""globalSequenceNumber"":2,""streamSequenceNumber"":2,""insertTimestamp"":8,""eventID"":""id1"",""eventType"":""F"",""data"":""\u003cA\u003e"",""metadata"":{}}]"))
      /\ (exists t, nth_error l 4 = Some (Bytes 400 t))
      /\ nth_error l 6 = Some (Bytes 200 "{""streamName"":""other!y"",""aggregateType"":""other"",""aggregateID"":""y"",""globalSequenceNumber"":3,""streamSequenceNumber"":1,""insertTimestamp"":7,""eventID"":""id0"",""eventType"":""E"",""data"":[],""metadata"":1}"))
  /\ answers on_ldb ldb_init (map fst scene) = answers on_mem mem_init (map fst scene)
  /\ none_refused (map snd scene) (answers on_ldb ldb_init (map fst scene)).
Proof.
  assert (Hp : forall a b c d e, Permutation [a; b; c; d; e] [d; a; b; c; e : string * json]).
  { intros. exact (Permutation_sym (Permutation_middle [a; b; c] [e] d)). }
  split; [|split; [|split; [|split; [|split]]]].
  - unfold scene. cbn [map fst snd]. repeat (apply Forall2_cons); [| | | | | | |apply Forall2_nil].
    + split; [|split; [now apply ascii_text|repeat constructor; discriminate]]. eexists. split; [eapply reads_carries; vm_compute; reflexivity|].
      split; [address|]. split; [spell|]. split; [reflexivity|]. split; [reflexivity|]. split.
      { eexists. split; [reflexivity|]. apply Forall2_cons; [|apply Forall2_cons; [|apply Forall2_nil]].
        - eexists. split; [reflexivity|]. cbn [ce_atype ce_aid ce_etype ce_data ce_meta]. apply Permutation_refl.
        - eexists. split; [reflexivity|]. cbn [ce_atype ce_aid ce_etype ce_data ce_meta]. apply Permutation_sym, Hp. }
      split; [discriminate|]. split; [intros x y [<-|[<-|[]]] [<-|[<-|[]]]; auto|reflexivity].
    + split; [|split; [now apply ascii_text|repeat constructor; discriminate]]. eexists. split; [eapply reads_carries; vm_compute; reflexivity|].
      split; [address|]. split; [spell|]. split; [reflexivity|]. split; [reflexivity|]. split.
      { eexists. split; [reflexivity|]. apply Forall2_cons; [|apply Forall2_nil]. eexists. split; [reflexivity|]. apply Permutation_refl. }
      split; [discriminate|]. split; [apply alone|]. apply parse_reads. reflexivity.
    + split; [|split; [now apply ascii_text|repeat constructor; discriminate]]. eexists. split; [eapply reads_carries; vm_compute; reflexivity|].
      split; [address|]. split; [spell|]. split; [reflexivity|]. split; [reflexivity|]. split.
      { eexists. split; [reflexivity|]. apply Forall2_cons; [|apply Forall2_nil]. eexists. split; [reflexivity|]. apply Permutation_refl. }
      split; [discriminate|]. split; [apply alone|]. apply parse_reads. reflexivity.
    + split; [|exact Logic.I]. exists None. split; [exact Logic.I|]. split; [discriminate|]. split; [reflexivity|]. exists "json". split; [cbn; auto|spell].
    + split; [|exact Logic.I]. exists None. split; [apply empty_carries|]. right. left. exists "thing!x". split; [address|]. split; [spell|]. right. left. reflexivity.
    + split; [|exact Logic.I]. exists None. split; [exact Logic.I|]. split; [address|]. split; [spell|]. split; [reflexivity|]. left. apply parse_reads. reflexivity.
    + split; [|exact Logic.I]. exists None. split; [exact Logic.I|]. exists "ndjson". split; [cbn; auto|spell].
  - assert (S : forall p e b, sane_stamps (send p e b)); [|repeat (constructor; [apply S|]); constructor].
    intros p e b [|i]; (split; [now apply ascii_text|reflexivity]).
  - assert (A : clean "thing!x") by (apply (clean_by_check _ 7); vm_compute; auto).
    assert (B : clean "other!y") by (apply (clean_by_check _ 7); vm_compute; auto).
    assert (C : clean "thing") by (apply (clean_by_check _ 5); vm_compute; auto).
    assert (E : clean "other") by (apply (clean_by_check _ 5); vm_compute; auto).
    repeat constructor; assumption.
  - cbv zeta. split; [vm_compute; reflexivity|]. split; [eexists; vm_compute; reflexivity|].
    split; [vm_compute; reflexivity|]. split; [eexists; vm_compute; reflexivity|]. vm_compute. reflexivity.
  - vm_compute. reflexivity.
  - vm_compute. repeat split. eexists. reflexivity.
Qed.

(** Without the condition that events have data, it is not so.  A post of an event whose
    data is null is answered with 201, and the event is counted; but it can not be read
    again, nor can any event of the stream behind it: the array ends before it. *)
Theorem C102_null_data_refuted :
  let post_ d := send "/save-events/thing!x" "" ("[{""aggregateType"":""thing"",""aggregateID"":""x"",""eventType"":""E"",""data"":" ++ d ++ ",""metadata"":null}]") in
  let read_ := send "/events-by-stream/thing!x.json" "" "" in
  answers on_mem mem_init [post_ "null"; post_ "1"; read_]
    = [Bytes 201 "{""status"":""OK"",""streamSequenceNumber"":1}"; Bytes 201 "{""status"":""OK"",""streamSequenceNumber"":2}"; Bytes 200 "[]"]
  /\ answers on_ldb ldb_init [post_ "null"; post_ "1"; read_] = answers on_mem mem_init [post_ "null"; post_ "1"; read_].
Proof. cbv zeta. split; vm_compute; reflexivity. Qed.
Print Assumptions C102_null_data_refuted.
