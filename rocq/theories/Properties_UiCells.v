(** C96, C97: what the pages of the web interface show. *)
From Verif Require Import Base Core DecText Text PathSpec PathProofs NumberSpec NumberProofs Http HttpSpec Paging PagingSpec PagingProofs UiCells UiCellsSpec UiCellsProofs.
Open Scope string_scope.
Open Scope N_scope.

(** ** C96 *)

(** C96: whatever the texts of a record hold, the browser reads in each cell the very
    text - numbers in decimal, data as JSON - as long as it holds no byte 0. *)
Theorem C96_cells_partial : forall date json r,
  let w := show_row date json r in
  read_html (w_gsn w) = dec (r_gsn r) /\ read_html (w_ssn w) = dec (r_ssn r)
  /\ (lacks nul (r_etype r) = true -> read_html (w_etype w) = r_etype r)
  /\ (lacks nul (r_atype r) = true -> read_html (w_type w) = r_atype r)
  /\ (lacks nul (r_stream r) = true -> read_html (w_stream w) = r_stream r)
  /\ (lacks nul (date (r_ts r)) = true -> read_html (w_date w) = date (r_ts r))
  /\ (lacks nul (json (r_data r)) = true -> read_html (w_data w) = json (r_data r)).
Proof.
  intros date json r. cbn zeta. unfold show_row. cbn [w_gsn w_ssn w_etype w_type w_stream w_date w_data].
  repeat split; try (intros H; now apply read_back); apply read_back, lacks_dec; reflexivity.
Qed.
Print Assumptions C96_cells_partial.

(** C96: nothing in a record ends its cell or its link, or begins an element. *)
Theorem C96_no_markup : forall date json r,
  let w := show_row date json r in
  no_markup (w_gsn w) /\ no_markup (w_ssn w) /\ no_markup (w_etype w) /\ no_markup (w_type_link w) /\ no_markup (w_type w)
  /\ no_markup (w_stream_link w) /\ no_markup (w_stream w) /\ no_markup (w_date w) /\ no_markup (w_data w).
Proof.
  intros date json r. cbn zeta. unfold show_row. cbn [w_gsn w_ssn w_etype w_type_link w_type w_stream_link w_stream w_date w_data].
  assert (H : forall s, no_markup (html_escape s)) by (intros s; repeat split; apply escaped_lacks; cbn; auto).
  assert (Hs : forall s, no_markup ("/s/" ++ html_escape s)) by (intros s; destruct (H s) as (A & B & C & D); repeat split; cbn; assumption).
  assert (Ha : forall s, no_markup ("/a/" ++ html_escape s)) by (intros s; destruct (H s) as (A & B & C & D); repeat split; cbn; assumption).
  repeat match goal with |- no_markup _ /\ _ => split; [solve [auto]|] end. auto.
Qed.
Print Assumptions C96_no_markup.

Definition nasty : record :=
  mk_record "thing!<b>""x&amp;'" "thing" "x" 7 2 1600000000 "u" "It's+done" "{""a"":""</td><script>""}" "".
Example C96_cells_inhabited :
  let w := show_row (fun _ => "Sep 13, 2020 12:26:40 UTC") (fun d => d) nasty in
  w_data w = "{&#34;a&#34;:&#34;&lt;/td&gt;&lt;script&gt;&#34;}" /\ read_html (w_data w) = "{""a"":""</td><script>""}"
  /\ w_stream w = "thing!&lt;b&gt;&#34;x&amp;amp;&#39;" /\ w_stream_link w = "/s/thing!%3cb%3e%22x&amp;amp;%27"
  /\ read_html (w_stream w) = r_stream nasty /\ w_etype w = "It&#39;s&#43;done" /\ read_html (w_gsn w) = "7"
  /\ target_of (followed (read_html (w_stream_link w))) = Some (InStream (r_stream nasty), mk_pagination 10 0 []).
Proof. vm_compute. repeat split. Qed.

(** C96 refuted for byte 0, wherever it stands: another text is shown. *)
Theorem C96_nul_refuted : forall date json r, lacks nul (r_stream r) = false ->
  read_html (w_stream (show_row date json r)) <> r_stream r.
Proof. intros date json r H. apply nul_shown. exact H. Qed.
Print Assumptions C96_nul_refuted.

Example C96_nul_inhabited : let name := "a" ++ String nul "b" in
  lacks nul name = false /\ read_html (html_escape name) = String "a" (String "239" (String "191" (String "189" "b"))).
Proof. vm_compute. repeat split. Qed.

(** C96: the link of a row leads to the first page of the record's stream - for names
    a path can hold, without question mark, number sign or a percent sign followed by
    two hexadecimal digits. *)
Theorem C96_stream_link_partial : forall date json r,
  addressable (r_stream r) -> lacks "?" (r_stream r) = true -> lacks "#" (r_stream r) = true -> ~ has_escape (r_stream r) ->
  target_of (followed (read_html (w_stream_link (show_row date json r)))) = Some (InStream (r_stream r), mk_pagination 10 0 []).
Proof.
  intros date json r Ha H1 H2 H3. unfold show_row. cbn [w_stream_link].
  destruct (link_leads "/s/" (r_stream r)) as (q & E & Hq); [auto|]. rewrite E, (Hq H1 H2).
  rewrite in_path_all, soft_none by assumption. pose proof (ui_two "s" (r_stream r) (or_introl eq_refl) Ha) as Ht.
  cbn [append] in Ht |- *. rewrite Ht. reflexivity.
Qed.
Print Assumptions C96_stream_link_partial.

Example C96_link_inhabited : addressable "caf%e 100% (a+b)" /\ lacks "?" "caf%e 100% (a+b)" = true /\ lacks "#" "caf%e 100% (a+b)" = true
  /\ normalize "caf%e 100% (a+b)" = "caf%25e%20100%25%20%28a+b%29"
  /\ target_of (followed (read_html ("/s/" ++ html_escape (normalize "caf%e 100% (a+b)")))) = Some (InStream "caf%e 100% (a+b)", mk_pagination 10 0 []).
Proof. repeat split; try (vm_compute; reflexivity); discriminate. Qed.
Example C96_no_escape_inhabited : ~ has_escape "caf%e 100% (a+b)".
Proof.
  intros H. apply soft_shorter in H. vm_compute in H. lia.
Qed.

(** C96 refuted for every other name: the link of the row never leads to its stream. *)
Theorem C96_stream_link_refuted : forall date json r pg,
  lacks "?" (r_stream r) = false \/ lacks "#" (r_stream r) = false \/ has_escape (r_stream r) ->
  target_of (followed (read_html (w_stream_link (show_row date json r)))) <> Some (InStream (r_stream r), pg).
Proof.
  intros date json r pg H E. unfold show_row in E. cbn [w_stream_link] in E.
  destruct (link_leads "/s/" (r_stream r)) as (q & E' & _); [auto|]. rewrite E' in E.
  destruct (ui_route ("/s/" ++ soft (in_path (r_stream r)))) as [pl|] eqn:Er; [|discriminate]. injection E as -> _.
  apply route_length in Er. rewrite app_length_s in Er. cbn [String.length] in Er.
  pose proof (soft_length (in_path (r_stream r))) as A. destruct (in_path_length (r_stream r)) as [B C].
  destruct (lacks "?" (r_stream r)) eqn:E1; [|specialize (C (or_introl eq_refl)); lia].
  destruct (lacks "#" (r_stream r)) eqn:E2; [|specialize (C (or_intror eq_refl)); lia].
  destruct H as [H|[H|H]]; try discriminate. rewrite in_path_all in * by assumption. pose proof (soft_shorter _ H). lia.
Qed.
Print Assumptions C96_stream_link_refuted.

Example C96_wrong_link_inhabited :
  target_of (followed (read_html ("/s/" ++ html_escape (normalize "order!why?not")))) = Some (InStream "order!why", mk_pagination 10 0 [])
  /\ target_of (followed (read_html ("/s/" ++ html_escape (normalize "rate!50%25")))) = Some (InStream "rate!50%", mk_pagination 10 0 []).
Proof. vm_compute. repeat split. Qed.

(** C96: the link to an aggregate type leads to its page. *)
Theorem C96_type_link_partial : forall date json r, linkable (OfType (r_atype r)) ->
  target_of (followed (read_html (w_type_link (show_row date json r)))) = Some (OfType (r_atype r), mk_pagination 10 0 []).
Proof.
  intros date json r Hl. unfold show_row. cbn [w_type_link]. pose proof (base_plain _ Hl) as Hp. pose proof (ui_base _ Hl) as Hr.
  assert (Hq : plain (r_atype r)) by (destruct Hl as [H _]; now apply letters_plain).
  destruct (plain_facts _ Hq) as (A & B & _ & D).
  destruct (link_leads "/a/" (r_atype r)) as (q & E & Hq'); [auto|]. rewrite E, (Hq' A B).
  rewrite in_path_all by assumption. rewrite (soft_plain _ _ D). unfold base_uri in Hr. rewrite Hr. reflexivity.
Qed.
Print Assumptions C96_type_link_partial.

Example C96_type_link_inhabited : linkable (OfType "thing-x").
Proof. split; [|discriminate]. repeat (split; [unfold plain_letter; vm_compute; intuition congruence|]). exact Logic.I. Qed.

(** C96: writing a next or previous link into the page does not change what it asks
    for. *)
Theorem C96_page_links_partial : forall pl pg, linkable pl -> sane pg ->
  (forall next, pg_current pg < next -> next < 2 ^ 64 -> exists text, next_link (base_uri pl) pg next = Some text
     /\ target_of (followed (read_html (shown_link text))) = target_of (followed text) /\ target_of (followed text) <> None)
  /\ (forall ks k, pg_previous pg = (ks ++ [k])%list -> exists text, previous_link (base_uri pl) pg = Some text
     /\ target_of (followed (read_html (shown_link text))) = target_of (followed text) /\ target_of (followed text) <> None).
Proof.
  intros pl pg Hl Hs. split.
  - intros next Hn Hb. unfold next_link. rewrite (proj2 (N.ltb_lt _ _) Hn).
    match goal with |- context [encode_query ?kvs] => destruct (page_link pl kvs Hl ltac:(discriminate)) as (t & E & F);
      destruct (link_back pl kvs Hl ltac:(discriminate)) as (t' & E' & _ & F') end.
    exists t. rewrite E in E'. injection E' as <-. split; [exact E|]. split; congruence.
  - intros ks k Ek. unfold previous_link. rewrite Ek, rev_app_distr. cbn [rev app].
    match goal with |- context [encode_query ?kvs] => destruct (page_link pl kvs Hl ltac:(discriminate)) as (t & E & F);
      destruct (link_back pl kvs Hl ltac:(discriminate)) as (t' & E' & _ & F') end.
    exists t. rewrite E in E'. injection E' as <-. split; [exact E|]. split; congruence.
Qed.
Print Assumptions C96_page_links_partial.

Example C96_page_links_inhabited :
  next_link (base_uri (InStream "it's (x)")) (mk_pagination 5 0 []) 6 = Some "/s/it%27s%20%28x%29?current=6&itemsPerPage=5&previous=0"
  /\ shown_link "/s/it%27s%20%28x%29?current=6&itemsPerPage=5&previous=0" = "/s/it%27s%20%28x%29?current=6&amp;itemsPerPage=5&amp;previous=0"
  /\ shown_link "/s/it's?current=6" = "/s/it%27s?current=6".
Proof. vm_compute. repeat split. Qed.

(** C96: totals are written in groups of three digits, and are the numbers they
    stand for. *)
Theorem C96_totals_partial : forall v, v < 2 ^ 63 ->
  grouped (format_uint64 v) /\ numeral (without "," (format_uint64 v)) v.
Proof.
  intros v Hv. unfold format_uint64. rewrite (proj2 (N.ltb_lt _ _) Hv).
  assert (Hv' : v < 2 ^ 64) by (eapply N.lt_trans; [exact Hv|reflexivity]).
  destruct (comma_ok v Hv') as (A & B & C). split; [exact A|]. apply parse_reads. unfold parse_uint.
  destruct (without "," (comma v)) as [|c s] eqn:E; [congruence|]. rewrite B. change two64 with (2 ^ 64).
  now rewrite (proj2 (N.ltb_lt _ _) Hv').
Qed.
Print Assumptions C96_totals_partial.

(** C96 refuted for the upper half of the uint64s: a negative number is shown. *)
Theorem C96_totals_refuted : forall v, 2 ^ 63 <= v -> v < 2 ^ 64 ->
  exists t, format_uint64 v = "-" ++ t /\ numeral (without "," t) (2 ^ 64 - v).
Proof.
  intros v H1 H2. unfold format_uint64. rewrite (proj2 (N.ltb_ge _ _) H1). eexists. split; [reflexivity|].
  assert (H : 2 ^ 64 - v < 2 ^ 64) by (change (2 ^ 63) with 9223372036854775808 in H1; change (2 ^ 64) with 18446744073709551616 in *; lia).
  destruct (comma_ok _ H) as (A & B & C). apply parse_reads. unfold parse_uint.
  destruct (without "," (comma (2 ^ 64 - v))) as [|c s] eqn:E; [congruence|]. rewrite B. change two64 with (2 ^ 64).
  now rewrite (proj2 (N.ltb_lt _ _) H).
Qed.
Print Assumptions C96_totals_refuted.

Example C96_totals_inhabited :
  map format_uint64 [0; 7; 999; 1000; 1002003; 9223372036854775807; 9223372036854775808; 18446744073709551615]
  = ["0"; "7"; "999"; "1,000"; "1,002,003"; "9,223,372,036,854,775,807"; "-9,223,372,036,854,775,808"; "-1"].
Proof. vm_compute. reflexivity. Qed.

(** ** C97 *)

Definition arrivals (ms : list (record * N)) : list live_event := map (fun m => Arrived (fst m) (snd m)) ms.

(** C97: after any history of messages and lost connections, the table of the live
    page shows the ten newest of the records that arrived since the connection was
    last lost, newest first, and the total that came with the newest. *)
Theorem C97_newest_ten : forall loaded before ms m,
  let s := live_run (live_start loaded) (before ++ [Disconnected] ++ arrivals (ms ++ [m]))%list in
  v_records s = firstn 10 (rev (map fst (ms ++ [m])%list)) /\ v_total s = snd m.
Proof.
  intros loaded before ms m. cbn zeta. unfold live_run. rewrite fold_left_app. set (s0 := fold_left live_step before _).
  cbn [app fold_left live_step]. assert (H : exists r t l, (ms ++ [m])%list = (r, t) :: l).
  { destruct ms as [|[r t] l]; [destruct m as [r t]|]; cbn [app]; do 3 eexists; reflexivity. }
  destruct H as (r & t & l & E). rewrite E. unfold arrivals. cbn [map fst snd fold_left live_step v_was v_records length].
  cbn [N.of_nat Pos.of_succ_nat]. change (10 <? 1) with false. cbn iota.
  change (fold_left live_step) with (fun es s => live_run s es). cbv beta.
  destruct (live_grows l (mk_live [r] false t)) as (A & B & _); [reflexivity|cbn; lia|]. rewrite A, B.
  cbn [v_records v_total rev map fst]. split; [reflexivity|].
  assert (Hl : snd m = last (map snd ((r, t) :: l)) 0) by (rewrite <- E, map_app; cbn [map]; now rewrite last_last).
  rewrite Hl. cbn [map snd]. clear. destruct (map snd l) as [|x xs]; [reflexivity|]. change (last (t :: x :: xs) 0) with (last (x :: xs) 0).
  revert x. induction xs as [|y xs IH]; intros x; [reflexivity|]. exact (IH y).
Qed.
Print Assumptions C97_newest_ten.

(** C97: the same before any connection was lost. *)
Theorem C97_newest_ten_first : forall loaded ms,
  let s := live_run (live_start loaded) (arrivals ms) in
  v_records s = firstn 10 (rev (map fst ms)) /\ v_total s = last (map snd ms) loaded.
Proof.
  intros loaded ms. cbn zeta. destruct (live_grows ms (live_start loaded)) as (A & B & _); [reflexivity|cbn; lia|].
  unfold arrivals. rewrite A, B. cbn [live_start v_records v_total]. now rewrite app_nil_r.
Qed.
Print Assumptions C97_newest_ten_first.

(** C97: there are never more than ten rows, and losing a connection alone leaves on
    the page what it showed. *)
Theorem C97_between : forall loaded es,
  (length (v_records (live_run (live_start loaded) es)) <= 10)%nat
  /\ v_records (live_run (live_start loaded) (es ++ [Disconnected])%list) = v_records (live_run (live_start loaded) es)
  /\ v_total (live_run (live_start loaded) (es ++ [Disconnected])%list) = v_total (live_run (live_start loaded) es).
Proof.
  intros loaded es. split; [apply live_bound; cbn; lia|]. unfold live_run. rewrite fold_left_app. split; reflexivity.
Qed.
Print Assumptions C97_between.

Example C97_inhabited : let r n := mk_record "s" "t" "i" n n 0 "u" "E" "" "" in
  let s := live_run (live_start 3) ([Arrived (r 4) 4; Disconnected] ++ arrivals (map (fun n => (r n, n)) [6; 7; 8; 9; 10; 11; 12; 13; 14; 15; 16]))%list in
  map r_gsn (v_records s) = [16; 15; 14; 13; 12; 11; 10; 9; 8; 7] /\ v_total s = 16
  /\ map r_gsn (v_records (live_run (live_start 3) [Arrived (r 4) 4; Disconnected])) = [4].
Proof. vm_compute. repeat split. Qed.
