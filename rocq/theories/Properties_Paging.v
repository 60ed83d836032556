(** C39, C40: paging through streams and aggregate types in the web interface. *)
From Coq Require Import Sorted PeanoNat.
From Verif Require Import Base Core CoreSpec CoreProofs DecText Text LogSpec LogProofs StoreSpec InMemory InMemoryProofs ToyCodec
  Properties_InMemory Text PathSpec PathProofs Http HttpSpec HttpProofs Paging PagingSpec PagingProofs.
Open Scope string_scope.
Open Scope list_scope.
Open Scope N_scope.

Definition no_page : page := mk_page [] "" "".
Definition shown_by (ps : list page) : list record := concat (map p_records ps).

(** ** C39 *)

(** C39: any visit along next links, over any store that may grow between the
    requests ([state i] answers request [i]), shows a beginning of the records in
    order; all of them once there is no next link.  No page shows more than its size,
    and every page with a next link is full. *)
Theorem C39_walk_partial : forall St (store : St -> op -> St * out) pl (state : nat -> St) (view : nat -> list record) target n ps,
  linkable pl -> (forall i, holds store (state i) pl (view i)) -> (forall i, exists more, view (S i) = view i ++ more) ->
  first_request pl target n ->
  visit (fun i t => snd (ui_step St store (state i) t)) 0 target ps ->
  (exists rest, view (length ps - 1)%nat = shown_by ps ++ rest /\ (p_next (last ps no_page) = "" -> rest = []))
  /\ Forall (fun p => N.of_nat (length (p_records p)) <= n) ps
  /\ Forall (fun p => p_next p <> "" -> N.of_nat (length (p_records p)) = n) ps
  /\ 1 <= n <= 1000.
Proof.
  intros St store pl state view target n ps Hl Hh Hg Hf Hv.
  destruct (first_ready pl view Hl target n Hf) as [Hr Hn].
  destruct (visit_ok St store pl state view Hl Hh Hg 0 target ps Hv n [] Hr) as ((rest & E & Hrest) & H1 & H2).
  split; [exists rest; split; [exact E|exact Hrest]|]. split; [|split; [|exact Hn]].
  - eapply Forall_impl; [|exact H1]. cbn. intros p Hp. lia.
  - eapply Forall_impl; [|exact H2]. cbn. intros p Hp Hne. specialize (Hp Hne). lia.
Qed.
Print Assumptions C39_walk_partial.

(** C39: if the store stays as it is, following the next links comes to an end and
    has then shown exactly the records, each once and in order. *)
Theorem C39_whole_partial : forall St (store : St -> op -> St * out) pl s view target n,
  linkable pl -> holds store s pl view -> first_request pl target n ->
  exists ps, visit (fun _ t => snd (ui_step St store s t)) 0 target ps
    /\ p_next (last ps no_page) = "" /\ shown_by ps = view.
Proof.
  intros St store pl s view target n Hl Hh Hf.
  assert (Hg : forall i : nat, exists more, (fun _ : nat => view) (S i) = (fun _ => view) i ++ more) by (intros; exists []; now rewrite app_nil_r).
  destruct (first_ready pl (fun _ => view) Hl target n Hf) as [Hr Hn].
  destruct (visit_exists St store pl (fun _ => s) (fun _ => view) Hl (fun _ => Hh) Hg (length view) 0 target n [] Hr) as (ps & Hv & _ & Hend).
  destruct (visit_ok St store pl (fun _ => s) (fun _ => view) Hl (fun _ => Hh) Hg 0 target ps Hv n [] Hr) as ((rest & E & Hrest) & _ & H2).
  exists ps. split; [exact Hv|].
  assert (Hlast : p_next (last ps no_page) = "").
  { destruct Hend as [Hlen|H]; [|exact H]. destruct (String.eqb_spec (p_next (last ps no_page)) "") as [|Hne]; [assumption|exfalso].
    (* every page would be full: more records than there are *)
    assert (Hfull : (length ps <= length (shown_by ps))%nat).
    { assert (Hall : Forall (fun p => p_next p <> "") ps).
      { clear -Hv Hne. induction Hv as [i t p H|i t p ps H Hn Hv IH]; [constructor; [exact Hne|constructor]|].
        constructor; [exact Hn|]. apply IH. destruct Hv; exact Hne. }
      clear -Hall H2 Hn. unfold shown_by. induction ps as [|p ps IH]; [cbn; lia|].
      inversion Hall as [|? ? Ha1 Ha2]; inversion H2 as [|? ? Hb1 Hb2]; subst. cbn [map concat length]. rewrite app_length. specialize (IH Hb2 Ha2). rewrite (Hb1 Ha1). lia. }
    apply (f_equal (@length _)) in E. rewrite app_nil_l, app_length in E. unfold shown_by in Hfull. lia. }
  split; [exact Hlast|]. rewrite app_nil_l in E. rewrite (Hrest Hlast), app_nil_r in E. symmetry. exact E.
Qed.
Print Assumptions C39_whole_partial.

(** The in-memory store meets the hypotheses: after any history, and with any saves
    in between the requests. *)
Definition no_delete (o : op) : Prop := match o with OpDelete _ _ _ => False | _ => True end.
Definition place_view (pl : place) (L : log) : list record :=
  match pl with InStream n => of_stream n L | OfType t => log_by_types 0 [t] L end.

Lemma filter_sorted {A} (R : A -> A -> Prop) f l : StronglySorted R l -> StronglySorted R (filter f l).
Proof.
  induction 1 as [|a l Hs IH Hf]; cbn; [constructor|]. destruct (f a); [|exact IH]. constructor; [exact IH|].
  rewrite Forall_forall in *. intros x Hx. apply filter_In in Hx. now apply Hf.
Qed.
Lemma ssn_sorted l : forall k, ssn_from k l -> StronglySorted (fun a b => r_ssn a < r_ssn b) l /\ Forall (fun r => k < r_ssn r) l.
Proof.
  induction l as [|r l IH]; intros k; cbn [ssn_from]; [split; constructor|]. intros [E H]. destruct (IH _ H) as [H1 H2].
  split; constructor; auto; try lia; eapply Forall_impl; try exact H2; cbn; intros; lia.
Qed.

Lemma inmemory_holds c m L pl : R c m L -> Forall (fun r => place_index pl r < 2 ^ 64) (place_view pl L) ->
  holds (mem_step c) m pl (place_view pl L).
Proof.
  intros HR Hb. split; [|split; [|split; [|exact Hb]]].
  - intros k. destruct pl as [n|t]; cbn [place_read place_view place_index].
    + destruct (step_read c m L (OpByStream k n) HR Logic.I) as (x & Ex & Es). cbn in Ex. injection Ex as <-.
      eexists. split; [exact Es|]. unfold stream_length.
      destruct (of_stream n L) as [|r l] eqn:El; [right; split; [reflexivity|]; exists EStreamNotFound; reflexivity|].
      left. unfold log_by_stream. now rewrite El.
    + destruct (step_read c m L (OpByTypes k [t]) HR) as (x & Ex & Es); [repeat constructor; intros []|]. cbn in Ex. injection Ex as <-.
      eexists. split; [exact Es|]. left. f_equal. unfold log_by_types. rewrite filter_filter. apply filter_ext. intros r.
      replace (0 <=? r_gsn r) with true by (symmetry; apply N.leb_le; lia). cbn [andb]. apply andb_comm.
  - destruct pl as [n|t]; [|exact Logic.I].
    destruct (step_read c m L (OpTotal n None) HR Logic.I) as (x & Ex & Es). cbn in Ex. injection Ex as <-. eauto.
  - destruct (R_log _ _ _ HR) as (Hg & _ & Hs). destruct pl as [n|t]; cbn [place_view place_index].
    + specialize (Hs n). now apply (ssn_sorted _ 0).
    + apply filter_sorted. exact Hg.
Qed.

Lemma view_after L o x pl : no_delete o -> exists more, place_view pl (log_after L o x) = place_view pl L ++ more.
Proof.
  intros Hd. assert (H0 : exists more, place_view pl L = place_view pl L ++ more) by (exists []; now rewrite app_nil_r).
  destruct o as [ex s evs cn| | | | |]; try contradiction; try exact H0.
  destruct x as [n bc|e| | | | |]; try exact H0.
  cbn [log_after]. destruct pl as [name|t]; cbn [place_view].
  - rewrite of_stream_append. eauto.
  - unfold log_by_types, append_log. cbn [l_recs]. rewrite filter_app. eauto.
Qed.
Lemma view_run c ops : codec_ok c -> Forall (fun o => plain_call c o /\ no_delete o) ops -> forall m L, R c m L -> exists L',
  R c (fst (run (mem_step c) m ops)) L' /\ forall pl, exists more, place_view pl L' = place_view pl L ++ more.
Proof.
  intros Hc. induction 1 as [|o ops [Hp Hd] Hf IH]; intros m L HR; cbn [run].
  - exists L. split; [exact HR|]. intros pl. exists []. now rewrite app_nil_r.
  - destruct (step_ok c Hc m L o HR Hp) as (x & _ & _ & HR1). destruct (mem_step c m o) as [m1 y]. cbn [fst] in HR1.
    destruct (IH m1 _ HR1) as (L' & HR' & Hv). destruct (run (mem_step c) m1 ops) as [m2 ys]. exists L'. split; [exact HR'|].
    intros pl. destruct (Hv pl) as (a & Ea). destruct (view_after L o x pl Hd) as (b & Eb). exists (b ++ a). now rewrite Ea, Eb, app_assoc.
Qed.

(** C39 for the in-memory store: whatever happened before the visit and whatever is
    saved while it lasts, the pages show a beginning of what a read shows at the time
    of the last page, and all of it when that page has no next link. *)
Theorem C39_inmemory_partial : forall c pl ops (later : nat -> list op) (state : nat -> mem) target n ps,
  codec_ok c -> linkable pl -> Forall (tame_call c) ops ->
  (forall i, Forall (fun o => plain_call c o /\ no_delete o) (later i)) ->
  state 0%nat = mem_after c ops -> (forall i, state (S i) = fst (run (mem_step c) (state i) (later i))) ->
  (forall i l r, snd (mem_step c (state i) (place_read pl 0)) = OutResults l -> In (RRec r) l -> place_index pl r < 2 ^ 64) ->
  first_request pl target n ->
  visit (fun i t => snd (ui_step mem (mem_step c) (state i) t)) 0 target ps ->
  exists l rest, snd (mem_step c (state (length ps - 1)%nat) (place_read pl 0)) = OutResults l
    /\ before_error l = shown_by ps ++ rest /\ (p_next (last ps no_page) = "" -> rest = []).
Proof.
  intros c pl ops later state target n ps Hc Hl Ht Hlater H0 HS Hb Hf Hv.
  assert (HL : forall i, exists L, R c (state i) L).
  { induction i as [|i (L & HR)].
    - rewrite H0. unfold mem_after. apply (run_tame c Hc ops mem_init empty_log); [apply R_init|exact Ht].
    - rewrite HS. destruct (view_run c (later i) Hc (Hlater i) _ _ HR) as (L' & HR' & _). eauto. }
  assert (Hview : exists view : nat -> list record, forall i, exists L, R c (state i) L /\ view i = place_view pl L).
  { exists (fun i => match snd (mem_step c (state i) (place_read pl 0)) with OutResults l => before_error l | _ => [] end).
    intros i. destruct (HL i) as (L & HR). exists L. split; [exact HR|]. destruct pl as [name|t]; cbn [place_read place_view].
    - destruct (step_read c _ L (OpByStream 0 name) HR Logic.I) as (x & Ex & ->). cbn in Ex. injection Ex as <-. cbn [snd]. unfold stream_length, log_by_stream.
      destruct (of_stream name L) as [|r l] eqn:E; [reflexivity|]. cbn [length]. destruct (N.eqb_spec (N.of_nat (S (length l))) 0); [lia|].
      rewrite before_error_map. apply filter_all. intros; apply N.leb_le. lia.
    - destruct (step_read c _ L (OpByTypes 0 [t]) HR) as (x & Ex & ->); [repeat constructor; intros []|]. cbn in Ex. injection Ex as <-. cbn [snd]. apply before_error_map. }
  destruct Hview as (view & Hview).
  assert (Hread : forall i, exists l, snd (mem_step c (state i) (place_read pl 0)) = OutResults l /\ before_error l = view i /\ (forall r, In r (view i) -> In (RRec r) l)).
  { intros i. destruct (Hview i) as (L & HR & Ev). rewrite Ev. destruct pl as [name|t]; cbn [place_read place_view].
    - destruct (step_read c _ L (OpByStream 0 name) HR Logic.I) as (x & Ex & ->). cbn in Ex. injection Ex as <-. eexists. split; [reflexivity|]. unfold stream_length, log_by_stream.
      destruct (of_stream name L) as [|r l] eqn:E; [split; [reflexivity|intros ? []]|]. cbn [length]. destruct (N.eqb_spec (N.of_nat (S (length l))) 0); [lia|].
      rewrite before_error_map, filter_all by (intros; apply N.leb_le; lia). split; [reflexivity|]. intros r' Hr'. now apply in_map.
    - destruct (step_read c _ L (OpByTypes 0 [t]) HR) as (x & Ex & ->); [repeat constructor; intros []|]. cbn in Ex. injection Ex as <-.
      eexists. split; [reflexivity|]. split; [apply before_error_map|]. intros r Hr. now apply in_map. }
  assert (Hholds : forall i, holds (mem_step c) (state i) pl (view i)).
  { intros i. destruct (Hview i) as (L & HR & Ev). rewrite Ev. apply inmemory_holds; [exact HR|]. rewrite <- Ev. apply Forall_forall. intros r Hr.
    destruct (Hread i) as (l & El & _ & Hin). apply (Hb i l); [exact El|now apply Hin]. }
  assert (Hgrow : forall i, exists more, view (S i) = view i ++ more).
  { intros i. destruct (Hview i) as (L & HR & Ev). destruct (view_run c (later i) Hc (Hlater i) _ _ HR) as (L' & HR' & Hg).
    destruct (Hg pl) as (more & Em). rewrite <- HS in HR'. exists more. rewrite Ev, <- Em.
    destruct (Hread (S i)) as (l & El & <- & _). destruct pl as [name|t]; cbn [place_read place_view] in *.
    - destruct (step_read c _ L' (OpByStream 0 name) HR' Logic.I) as (x & Ex & Es). rewrite Es in El. cbn in Ex. injection Ex as <-. cbn [snd] in El. injection El as <-.
      unfold stream_length, log_by_stream. destruct (of_stream name L') as [|r l'] eqn:E; [reflexivity|]. cbn [length]. destruct (N.eqb_spec (N.of_nat (S (length l'))) 0); [lia|].
      rewrite before_error_map. apply filter_all. intros; apply N.leb_le; lia.
    - destruct (step_read c _ L' (OpByTypes 0 [t]) HR') as (x & Ex & Es); [repeat constructor; intros []|]. rewrite Es in El. cbn in Ex. injection Ex as <-. cbn [snd] in El. injection El as <-.
      apply before_error_map. }
  destruct (C39_walk_partial mem (mem_step c) pl state view target n ps Hl Hholds Hgrow Hf Hv) as ((rest & E & Hr) & _).
  destruct (Hread (length ps - 1)%nat) as (l & El & Ebe & _). exists l, rest. split; [exact El|]. split; [now rewrite Ebe|exact Hr].
Qed.
Print Assumptions C39_inmemory_partial.

Definition five : list op :=
  [ OpSave None "thing!x" [thing "1"; thing "2"] None; OpSave None "other!y" [other "a"] None;
    OpSave None "thing!x" [thing "3"; thing "4"; thing "5"] None ].
Definition ui (m : mem) (t : string) : ui_answer := snd (ui_step mem (mem_step toy) m t).
Definition datas (a : ui_answer) : list string := match a with Page p => map r_data (p_records p) | _ => [] end.
Definition next_of (a : ui_answer) : string := match a with Page p => p_next p | _ => "" end.
Definition previous_of (a : ui_answer) : string := match a with Page p => p_previous p | _ => "" end.

Example C39_inhabited :
  linkable (InStream "thing!x") /\ linkable (OfType "thing") /\ Forall (tame_call toy) five
  /\ first_request (InStream "thing!x") "/s/thing%21x?itemsPerPage=2" 2
  /\ (let m := mem_after toy five in
      let p1 := ui m "/s/thing%21x?itemsPerPage=2" in
      let p2 := ui m (followed (next_of p1)) in
      let p3 := ui m (followed (next_of p2)) in
      datas p1 = ["1"; "2"] /\ datas p2 = ["3"; "4"] /\ datas p3 = ["5"] /\ next_of p3 = ""
      /\ next_of p2 = "/s/thing!x?current=5&itemsPerPage=2&previous=0%2C3")
  /\ (let m := mem_after toy five in
      let p1 := ui m "/a/thing?itemsPerPage=4" in
      let m2 := fst (mem_step toy m (OpSave None "thing!z" [mk_event "thing" "z" "E" "6" "" "u" 7] None)) in
      let p2 := ui m2 (followed (next_of p1)) in
      datas p1 = ["1"; "2"; "3"; "4"] /\ datas p2 = ["5"; "6"] /\ next_of p2 = "").
Proof.
  repeat split; try discriminate; try (vm_compute; congruence); try (vm_compute; intuition congruence).
  - unfold five. repeat (apply Forall_cons; [left; intros r; discriminate|]). apply Forall_nil.
  - refine (FirstSized (InStream "thing!x") "/s/thing%21x" 2 _ eq_refl eq_refl). apply unescape_spelled. reflexivity.
Qed.

(** C39 refuted: the next link of a stream whose name holds a question mark leads to
    another stream: the part of the name before it. *)
Theorem C39_other_stream_refuted : forall x y pg next, addressable x -> plain x -> plain y -> sane pg ->
  pg_current pg < next -> next < 2 ^ 64 ->
  exists text, next_link (base_uri (InStream (x ++ "?" ++ y))) pg next = Some text
    /\ exists pg', target_of (followed text) = Some (InStream x, pg').
Proof.
  intros x y pg next Ha Hx Hy Hs Hn Hb.
  destruct (next_back (InStream x) pg next (conj Ha Hx) Hs Hn Hb) as (text & E & _ & Ht). exists text. split; [|eauto].
  rewrite <- E. unfold next_link. destruct (pg_current pg <? next); [|reflexivity].
  assert (Hp : plain (base_uri (InStream x))) by (apply base_plain; now split).
  destruct (plain_facts _ Hp) as (A & B & C & D). destruct (plain_facts _ Hy) as (A' & B' & C' & D').
  cbn [base_uri] in *. rewrite <- app_assoc_s. set (b := ("/s/" ++ x)%string) in *.
  unfold with_query. rewrite (cut_none "#" b) by exact B.
  rewrite (cut_none "#" (b ++ "?" ++ y)) by (rewrite !lacks_app, B, B'; reflexivity).
  rewrite (cut_none "?" b) by exact A. change ("?" ++ y)%string with (String "?" y). rewrite cut_lacks by exact A.
  rewrite C. change (String "?" y) with ("?" ++ y)%string. rewrite !chars_app, C, C'. reflexivity.
Qed.
Print Assumptions C39_other_stream_refuted.

Definition question : list op :=
  [ OpSave None "a?b" [thing "1"; thing "2"] None; OpSave None "a" [thing "X"; thing "Y"] None ].
Example C39_other_stream_witness :
  let m := mem_after toy question in
  let p1 := ui m "/s/a%3Fb?itemsPerPage=1" in
  datas p1 = ["1"] /\ next_of p1 = "/s/a?current=2&itemsPerPage=1&previous=0" /\ datas (ui m (followed (next_of p1))) = ["Y"].
Proof. vm_compute. repeat split. Qed.

(** C39 refuted: a stream whose name cannot be read as a URL has no first page as
    soon as it has more events than the page shows: building the link panics. *)
Theorem C39_no_page_refuted : forall St (store : St -> op -> St * out) s name pg s1 l,
  lacks "?" name = true -> lacks "#" name = true -> bad_escape name ->
  store s (OpByStream (pg_current pg) name) = (s1, OutResults l) ->
  (N.to_nat (pg_items pg) < length (before_error l))%nat ->
  (forall r, In r (before_error l) -> pg_current pg < r_ssn r) ->
  (exists s2 t, store s1 (OpTotal name None) = (s2, OutTotal t)) ->
  snd (show_page St store s (InStream name) pg) = NoPage.
Proof.
  intros St store s name pg s1 l A B C E Hlen Hgt (s2 & t & Et). apply bad_escape_iff in C. unfold show_page. cbn [place_read]. rewrite E.
  destruct (read_n_ok (pg_items pg + 1) l) as (it & Eit & _). rewrite Eit. replace (N.to_nat (pg_items pg + 1)) with (S (N.to_nat (pg_items pg))) by lia.
  rewrite firstn_length, Nat.min_l by lia. destruct (N.ltb_spec (pg_items pg) (N.of_nat (S (N.to_nat (pg_items pg))))); [|lia].
  rewrite Et. cbn [snd].
  destruct (rev (firstn (S (N.to_nat (pg_items pg))) (before_error l))) as [|r rest] eqn:Er.
  { apply (f_equal (@length _)) in Er. rewrite rev_length, firstn_length in Er. cbn [length] in Er. rewrite Nat.min_l in Er by lia. lia. }
  assert (Hr : pg_current pg < r_ssn r).
  { apply Hgt. assert (In r (rev (firstn (S (N.to_nat (pg_items pg))) (before_error l)))) as Hin by (rewrite Er; now left).
    apply in_rev in Hin. rewrite <- (firstn_skipn (S (N.to_nat (pg_items pg))) (before_error l)). apply in_app_iff. now left. }
  cbn [place_index base_uri]. unfold links, next_link. rewrite (proj2 (N.ltb_lt _ _) Hr).
  assert (forall q, with_query ("/s/" ++ name) q = None) as ->; [|destruct (previous_link _ _); reflexivity].
  intros q. unfold with_query. rewrite (cut_none "#") by exact B. rewrite (cut_none "?") by exact A.
  destruct (negb _); [reflexivity|]. change (unescape false ("/s/" ++ name)) with
    (match (match (match unescape false name with Some t => Some (String "/" t) | None => None end) with Some t => Some (String "s" t) | None => None end)
     with Some t => Some (String "/" t) | None => None end). now rewrite C.
Qed.
Print Assumptions C39_no_page_refuted.

Example C39_no_page_witness :
  let m := mem_after toy [OpSave None "100%" [thing "1"; thing "2"] None] in
  ui m "/s/100%25?itemsPerPage=1" = NoPage /\ datas (ui m "/s/100%25") = ["1"; "2"].
Proof. vm_compute. repeat split. Qed.

(** C39 refuted: a read error looks like the end.  The page shows what came before
    the error and has no next link. *)
Theorem C39_error_ends_refuted : forall St (store : St -> op -> St * out) s t pg s1 rs e others,
  sane pg -> linkable (OfType t) -> store s (OpByTypes (pg_current pg) [t]) = (s1, OutResults (map RRec rs ++ RErr e :: others)) ->
  (length rs <= N.to_nat (pg_items pg))%nat ->
  exists a, show_page St store s (OfType t) pg = (s1, Page (mk_page rs a "")).
Proof.
  intros St store s t pg s1 rs e others Hs Hl E Hlen. unfold show_page. cbn [place_read]. rewrite E.
  destruct (read_n_ok (pg_items pg + 1) (map RRec rs ++ RErr e :: others)) as (it & Eit & _). rewrite Eit.
  assert (before_error (map RRec rs ++ RErr e :: others) = rs) as -> by (clear; induction rs; cbn; congruence).
  rewrite firstn_all2 by lia. destruct (N.ltb_spec (pg_items pg) (N.of_nat (length rs))); [lia|].
  unfold links, next_link. rewrite N.ltb_irrefl.
  assert (exists pt, previous_link (base_uri (OfType t)) pg = Some pt) as (pt & ->).
  { destruct (pg_previous pg) as [|k ks] eqn:Ep.
    - exists "". now apply no_previous.
    - assert (pg_previous pg <> []) as Hne by (rewrite Ep; discriminate).
      destruct (exists_last Hne) as (ks' & k' & E'). destruct (previous_back (OfType t) pg k' ks' Hl Hs E') as (tx & Et & _). eauto. }
  eauto.
Qed.
Print Assumptions C39_error_ends_refuted.

Example C39_error_witness :
  datas (snd (ui_step unit (fun s _ => (s, OutResults [RRec (mk_record "s" "t" "i" 1 1 0 "" "" "d" ""); RErr EDeserialize; RRec (mk_record "s" "t" "i" 3 3 0 "" "" "lost" "")])) tt "/a/t"))
  = ["d"].
Proof. reflexivity. Qed.

(** ** C40 *)

(** C40: whatever the query says, the page size is between 1 and 1000 and the
    numbers are uint64s. *)
Theorem C40_any_query : forall q, sane (from_query q).
Proof.
  intros q. unfold from_query, from_string, new_pagination. cbv zeta. unfold sane. cbn [pg_items pg_current pg_previous].
  split; [|split].
  - destruct (N.leb_spec (number_or 10 (get_value "itemsPerPage" (parse_query q))) 0).
    + cbn. lia.
    + destruct (N.ltb_spec 1000 (number_or 10 (get_value "itemsPerPage" (parse_query q)))); lia.
  - unfold number_or. destruct (parse_uint _) eqn:E; [apply parse_bound in E; exact E|lia].
  - induction (split_str "," _) as [|x l IH]; cbn [parse_previous]; [constructor|].
    destruct (parse_uint x) eqn:E; [|constructor]. constructor; [apply parse_bound in E; exact E|exact IH].
Qed.
Print Assumptions C40_any_query.

Example C40_any_query_inhabited :
  from_query "itemsPerPage=5000&current=-1&previous=1,2,x,4" = mk_pagination 1000 0 [1; 2]
  /\ from_query "itemsPerPage=0&current=18446744073709551616&previous=" = mk_pagination 10 0 []
  /\ from_query "current=7&itemsPerPage=25&previous=0%2C3&current=9" = mk_pagination 25 7 [0; 3].
Proof. vm_compute. repeat split. Qed.

(** C40: parsing the query of a next link - of any stream or type, whatever its name -
    gives the page size, the intended index, and the history with the current index
    added. *)
Theorem C40_next_query : forall pl pg next text, sane pg -> pg_current pg < next -> next < 2 ^ 64 ->
  next_link (base_uri pl) pg next = Some text ->
  exists q, text <> "" /\ query_of text = Some q
    /\ from_query q = mk_pagination (pg_items pg) next (pg_previous pg ++ [pg_current pg]).
Proof. intros pl. exact (next_query (base_uri pl)). Qed.
Print Assumptions C40_next_query.

(** C40: parsing the query of a previous link gives the page size, the last index of
    the history and what came before it; without history there is no link. *)
Theorem C40_previous_query : forall pl pg text, sane pg -> previous_link (base_uri pl) pg = Some text ->
  (pg_previous pg = [] /\ text = "")
  \/ exists q ks k, text <> "" /\ query_of text = Some q /\ pg_previous pg = ks ++ [k]
       /\ from_query q = mk_pagination (pg_items pg) k ks.
Proof.
  intros pl pg text Hs H. destruct (pg_previous pg) as [|a l] eqn:E.
  - left. rewrite no_previous in H by exact E. split; congruence.
  - right. assert (pg_previous pg <> []) as Hne by (rewrite E; discriminate).
    destruct (exists_last Hne) as (ks & k & E'). destruct (previous_query _ pg k ks text Hs E' H) as (q & A & B & C).
    exists q, ks, k. rewrite <- E. auto.
Qed.
Print Assumptions C40_previous_query.

(** C40: the previous link of the page a next link asks for has the query of the page
    one came from. *)
Theorem C40_next_then_previous_query : forall pl pg next text q text', sane pg -> pg_current pg < next -> next < 2 ^ 64 ->
  next_link (base_uri pl) pg next = Some text -> query_of text = Some q ->
  previous_link (base_uri pl) (from_query q) = Some text' ->
  exists q', query_of text' = Some q' /\ from_query q' = pg.
Proof.
  intros pl pg next text q text' Hs Hn Hb H1 Hq H2.
  destruct (C40_next_query pl pg next text Hs Hn Hb H1) as (q0 & _ & E & F). rewrite Hq in E. injection E as <-.
  assert (Hs' : sane (from_query q)) by apply C40_any_query.
  destruct (previous_query (base_uri pl) (from_query q) (pg_current pg) (pg_previous pg) text' Hs') as (q' & _ & A & B); [now rewrite F|exact H2|].
  exists q'. split; [exact A|]. rewrite B, F. cbn. now destruct pg.
Qed.
Print Assumptions C40_next_then_previous_query.

(** A stream whose name spoils the rest of its links (C39): the query survives. *)
Example C40_query_inhabited :
  let pg := mk_pagination 2 1 [] in
  exists text, next_link (base_uri (InStream "why?not#x")) pg 3 = Some text
    /\ query_of text = Some "current=3&itemsPerPage=2&previous=1"
    /\ exists text', previous_link (base_uri (InStream "why?not#x")) (from_query "current=3&itemsPerPage=2&previous=1") = Some text'
    /\ query_of text' = Some "current=1&itemsPerPage=2".
Proof. cbn zeta. eexists. split; [vm_compute; reflexivity|]. split; [reflexivity|]. eexists. split; vm_compute; reflexivity. Qed.

(** C40: following a next link asks for the same place and page size, the intended
    index, and the current one added to the history. *)
Theorem C40_next_partial : forall pl pg next, linkable pl -> sane pg -> pg_current pg < next -> next < 2 ^ 64 ->
  exists text, next_link (base_uri pl) pg next = Some text /\ text <> ""
    /\ target_of (followed text) = Some (pl, mk_pagination (pg_items pg) next (pg_previous pg ++ [pg_current pg])).
Proof. exact next_back. Qed.
Print Assumptions C40_next_partial.

(** C40: following a previous link asks for the last index of the history, with what
    came before it as the history; no link is shown without history. *)
Theorem C40_previous_partial : forall pl pg, linkable pl -> sane pg ->
  match pg_previous pg with
  | [] => previous_link (base_uri pl) pg = Some ""
  | _ => exists text ks k, pg_previous pg = ks ++ [k] /\ previous_link (base_uri pl) pg = Some text /\ text <> ""
      /\ target_of (followed text) = Some (pl, mk_pagination (pg_items pg) k ks)
  end.
Proof.
  intros pl pg Hl Hs. destruct (pg_previous pg) as [|a l] eqn:E; [now apply no_previous|].
  assert (pg_previous pg <> []) as Hne by (rewrite E; discriminate).
  destruct (exists_last Hne) as (ks & k & E'). destruct (previous_back pl pg k ks Hl Hs E') as (text & H). exists text, ks, k.
  split; [congruence|exact H].
Qed.
Print Assumptions C40_previous_partial.

Example C40_inhabited : exists t1 t2,
  sane (mk_pagination 1000 (2 ^ 64 - 2) [0; 17; 2 ^ 63]) /\
  next_link (base_uri (InStream "thing!x y")) (mk_pagination 1000 (2 ^ 64 - 2) [0; 17; 2 ^ 63]) (2 ^ 64 - 1) = Some t1
  /\ t1 = "/s/thing%21x%20y?current=18446744073709551615&itemsPerPage=1000&previous=0%2C17%2C9223372036854775808%2C18446744073709551614"
  /\ previous_link (base_uri (InStream "thing!x y")) (mk_pagination 1000 (2 ^ 64 - 2) [0; 17; 2 ^ 63]) = Some t2
  /\ t2 = "/s/thing%21x%20y?current=9223372036854775808&itemsPerPage=1000&previous=0%2C17".
Proof.
  eexists _, _. split.
  { split; [cbn; lia|]. split; [reflexivity|]. repeat constructor. }
  split; [vm_compute; reflexivity|]. split; [reflexivity|]. split; [vm_compute; reflexivity|reflexivity].
Qed.

(** C40: a page, its next page, and that page's previous link: the last asks for the
    first page again, so in any state of the store both give the same answer. *)
Theorem C40_next_then_previous_partial : forall St (store : St -> op -> St * out) pl pg target s s1 s2 s3 p p',
  (forall s o s' l r, store s o = (s', OutResults l) -> In (RRec r) l -> r_ssn r < 2 ^ 64 /\ r_gsn r < 2 ^ 64) ->
  linkable pl -> target_of target = Some (pl, pg) ->
  ui_step St store s target = (s1, Page p) -> p_next p <> "" ->
  ui_step St store s2 (followed (p_next p)) = (s3, Page p') ->
  target_of (followed (p_previous p')) = Some (pl, pg)
  /\ forall s', ui_step St store s' (followed (p_previous p')) = ui_step St store s' target.
Proof.
  intros St store pl pg target s s1 s2 s3 p p' Hu Hl Ht E1 Hne E2.
  assert (Hs : sane pg).
  { unfold target_of in Ht. destruct (cut_byte "?" target) as [a b]. destruct (unescape false a) as [path|]; [|discriminate].
    destruct (ui_route path); [|discriminate]. injection Ht as _ <-. apply C40_any_query. }
  assert (Hpage : forall pg s s1 p, show_page St store s pl pg = (s1, Page p) -> sane pg ->
    previous_link (base_uri pl) pg = Some (p_previous p) /\
    exists next, next < 2 ^ 64 /\ next_link (base_uri pl) pg next = Some (p_next p)).
  { clear -Hu. intros pg s s1 p E Hs. unfold show_page in E. destruct (store s (place_read pl (pg_current pg))) as [sa x] eqn:Es.
    destruct x as [| | |l| | |]; try discriminate. destruct (read_n_ok (pg_items pg + 1) l) as (it & Eit & _). rewrite Eit in E.
    set (rs := firstn (N.to_nat (pg_items pg + 1)) (before_error l)) in *.
    set (next := if pg_items pg <? N.of_nat (length rs) then match rev rs with r :: _ => place_index pl r | [] => pg_current pg end else pg_current pg) in *.
    assert (Hn : next < 2 ^ 64).
    { unfold next. destruct Hs as (_ & Hc & _). destruct (_ <? _); [|exact Hc]. destruct (rev rs) as [|r rest] eqn:Er; [exact Hc|].
      assert (In r (before_error l)) as Hin.
      { assert (In r (rev rs)) as H by (rewrite Er; now left). apply in_rev in H. unfold rs in H.
        rewrite <- (firstn_skipn (N.to_nat (pg_items pg + 1)) (before_error l)). apply in_app_iff. now left. }
      assert (In (RRec r) l) as Hin'.
      { clear -Hin. induction l as [|[r'|e] l IH]; cbn in *; [contradiction| |contradiction]. destruct Hin as [->|H]; auto. }
      destruct (Hu _ _ _ _ _ Es Hin') as [Hu1 Hu2]. destruct pl; cbn [place_index]; assumption. }
    cbv zeta in E. destruct (links (base_uri pl) pg next) as [[a b]|] eqn:El.
    2:{ destruct pl; [destruct (store sa (OpTotal name None)) as [sb y]; destruct y|]; discriminate. }
    assert (p_previous p = a /\ p_next p = b) as [<- <-].
    { destruct pl; [destruct (store sa (OpTotal name None)) as [sb y]; destruct y; try discriminate|]; injection E as _ <-; auto. }
    unfold links in El. destruct (previous_link (base_uri pl) pg) eqn:Ep; [|discriminate].
    destruct (next_link (base_uri pl) pg next) eqn:En; [|discriminate]. injection El as -> ->. split; [reflexivity|]. exists next. auto. }
  unfold ui_step in E1. rewrite Ht in E1. destruct (Hpage _ _ _ _ E1 Hs) as (_ & next & Hn & En).
  assert (Hlt : pg_current pg < next).
  { unfold next_link in En. destruct (N.ltb_spec (pg_current pg) next); [assumption|]. congruence. }
  destruct (next_back pl pg next Hl Hs Hlt Hn) as (text & Et & _ & Htgt). rewrite En in Et. injection Et as <-.
  unfold ui_step in E2. rewrite Htgt in E2.
  assert (Hs2 : sane (mk_pagination (pg_items pg) next (pg_previous pg ++ [pg_current pg]))).
  { destruct Hs as (A & B & C). split; [exact A|]. split; [exact Hn|]. cbn. apply Forall_app. split; [exact C|]. constructor; [exact B|constructor]. }
  destruct (Hpage _ _ _ _ E2 Hs2) as (Hprev & _).
  destruct (previous_back pl _ (pg_current pg) (pg_previous pg) Hl Hs2 eq_refl) as (text & Et & _ & Hback).
  rewrite Hprev in Et. injection Et as <-. cbn [pg_items] in Hback.
  assert (mk_pagination (pg_items pg) (pg_current pg) (pg_previous pg) = pg) as Eta by (destruct pg; reflexivity). rewrite Eta in Hback.
  split; [exact Hback|]. intros s'. unfold ui_step. now rewrite Hback, Ht.
Qed.
Print Assumptions C40_next_then_previous_partial.

Example C40_round_inhabited :
  let m := mem_after toy five in
  let p1 := ui m "/s/thing%21x?itemsPerPage=2" in
  let p2 := ui m (followed (next_of p1)) in
  next_of p1 <> "" /\ datas (ui m (followed (previous_of p2))) = datas p1 /\ datas p1 = ["1"; "2"] /\ datas p2 = ["3"; "4"].
Proof. vm_compute. repeat split. discriminate. Qed.
