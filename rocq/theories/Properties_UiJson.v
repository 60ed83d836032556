(** C96: the data cell of a page of records. *)
From Coq Require Import ZArith.
From Verif Require Import Base Core DecText Text Json JsonSpec JsonProofs JsonText JsonTextSpec JsonTextProofs JsonGrammar JsonGrammarProofs JsonGrammarReads
  RecordIo RecordIoSpec RecordIoProofs UiCells UiCellsSpec UiCellsProofs UiJson.
Import JsonGrammar.
Open Scope string_scope.
Open Scope N_scope.

Lemma escape_no_nul a : lacks nul (escape_byte a) = true.
Proof. destruct a as [[] [] [] [] [] [] [] []]; vm_compute; reflexivity. Qed.
Lemma high_no_nul a : 128 <= N_of_ascii a -> negb (Ascii.eqb a nul) = true.
Proof. destruct (Ascii.eqb_spec a nul) as [->|]; [|reflexivity]. vm_compute. congruence. Qed.
Lemma cont_no_nul a : cont (N_of_ascii a) = true -> negb (Ascii.eqb a nul) = true.
Proof. intros H. apply high_no_nul. unfold cont, between in H. apply andb_true_iff in H as [H _]. now apply N.leb_le. Qed.

(** The bytes of a character of more than one byte are not below 128. *)
Lemma rune_bytes a r k : rune_len (String a r) = S (S k) -> 128 <= N_of_ascii a
  /\ match k, r with
     | O, String b _ => 128 <= N_of_ascii b
     | 1%nat, String b (String c _) => 128 <= N_of_ascii b /\ 128 <= N_of_ascii c
     | 2%nat, String b (String c (String d _)) => 128 <= N_of_ascii b /\ 128 <= N_of_ascii c /\ 128 <= N_of_ascii d
     | _, _ => False
     end.
Proof.
  cbn [rune_len]. destruct (N.ltb_spec (N_of_ascii a) 128) as [|Ha]; [discriminate|].
  destruct r as [|b r2]; [discriminate|]. destruct (between 194 223 (N_of_ascii a)).
  { destruct (cont (N_of_ascii b)) eqn:Eb; [|discriminate]. intros [= <-]. split; [exact Ha|].
    unfold cont, between in Eb. apply andb_true_iff in Eb as [Eb _]. now apply N.leb_le. }
  destruct r2 as [|c r3]; [discriminate|].
  set (lo := if N_of_ascii a =? 224 then 160 else if N_of_ascii a =? 240 then 144 else 128).
  assert (Hlo : 128 <= lo) by (unfold lo; destruct (_ =? 224); [lia|]; destruct (_ =? 240); lia).
  set (hi := if N_of_ascii a =? 237 then 159 else _).
  assert (Hs : forall n, between lo hi n = true -> 128 <= n).
  { intros n H. unfold between in H. apply andb_true_iff in H as [H _]. apply N.leb_le in H. lia. }
  assert (Hc : forall n, cont n = true -> 128 <= n).
  { intros n H. unfold cont, between in H. apply andb_true_iff in H as [H _]. now apply N.leb_le in H. }
  destruct (between 224 239 (N_of_ascii a)).
  { destruct (between lo hi (N_of_ascii b)) eqn:Eb; [|discriminate]. cbn [andb].
    destruct (cont (N_of_ascii c)) eqn:Ec; [|discriminate]. intros [= <-]. auto. }
  destruct r3 as [|d r4]; [discriminate|].
  destruct (between 240 244 (N_of_ascii a)); [|discriminate]. cbn [andb].
  destruct (between lo hi (N_of_ascii b)) eqn:Eb; [|discriminate]. cbn [andb].
  destruct (cont (N_of_ascii c)) eqn:Ec; [|discriminate]. cbn [andb].
  destruct (cont (N_of_ascii d)) eqn:Ed; [|discriminate]. intros [= <-]. auto.
Qed.
Lemma body_no_nul : forall n s, (String.length s <= n)%nat -> lacks nul (quote_body s) = true.
Proof.
  induction n as [|n IH]; intros s Hn; [destruct s; [reflexivity|cbn in Hn; lia]|].
  destruct s as [|a r]; [reflexivity|]. cbn [String.length] in Hn.
  assert (Er : lacks nul (String backslash "ufffd" ++ quote_body r) = true) by (rewrite lacks_app, IH by lia; reflexivity).
  cbn [quote_body]. destruct (rune_len (String a r)) as [|[|k]] eqn:El; [exact Er| |].
  - rewrite lacks_app, escape_no_nul, IH by lia. reflexivity.
  - apply rune_bytes in El as [Ha H]. apply high_no_nul in Ha.
    destruct k as [|[|[|k]]]; (destruct r as [|b r2]; [contradiction|]).
    + apply high_no_nul in H. cbn [lacks]. rewrite Ha, H, IH by (cbn [String.length] in Hn; lia). reflexivity.
    + destruct r2 as [|c r3]; [contradiction|]. destruct H as [Hb Hc].
      cbn [String.length] in Hn. destruct (_ && _ && _).
      * rewrite lacks_app. cbn [lacks]. rewrite IH by lia. rewrite andb_true_r.
        apply high_no_nul in Hc. clear - Hc. destruct c as [[] [] [] [] [] [] [] []]; vm_compute; reflexivity.
      * apply high_no_nul in Hb, Hc. cbn [lacks]. rewrite Ha, Hb, Hc, IH by lia. reflexivity.
    + destruct r2 as [|c r3]; [contradiction|]. destruct r3 as [|d r4]; [contradiction|]. destruct H as (Hb & Hc & Hd).
      cbn [String.length] in Hn. apply high_no_nul in Hb, Hc, Hd. cbn [lacks]. rewrite Ha, Hb, Hc, Hd, IH by lia. reflexivity.
    + contradiction.
Qed.
Lemma quote_no_nul s : lacks nul (quote s) = true.
Proof. unfold quote. cbn [lacks]. rewrite lacks_app, (body_no_nul _ s (le_n _)). reflexivity. Qed.

Lemma digits_no_nul s : all_digits s -> lacks nul s = true.
Proof.
  induction s as [|a s IH]; cbn [all_digits lacks]; [reflexivity|]. intros [H1 H2]. rewrite IH by exact H2. rewrite andb_true_r.
  destruct (Ascii.eqb_spec a nul) as [->|]; [exfalso; apply H1; reflexivity|reflexivity].
Qed.
Lemma num_no_nul n : number n -> lacks nul (print_num n) = true.
Proof.
  destruct n as [z|s]; cbn [number print_num].
  - intros _. unfold print_int. destruct z; rewrite ?lacks_app, (digits_no_nul _ (dec_all _)); reflexivity.
  - intros (neg & i & fr & ex & -> & Hi & Hfr & Hex & _).
    assert (A : lacks nul (if neg then "-" else "") = true) by (destruct neg; reflexivity).
    assert (B : lacks nul i = true) by (destruct Hi as [->|(c & r & _ & H & _)]; [reflexivity|now apply digits_no_nul]).
    assert (C : lacks nul fr = true) by (destruct Hfr as [->|(d & -> & H & _)]; [reflexivity|cbn [append lacks]; now rewrite (digits_no_nul _ H)]).
    assert (D : lacks nul ex = true).
    { destruct Hex as [->|(e & sg & d & -> & He & Hs & H & _)]; [reflexivity|]. cbn [lacks]. rewrite lacks_app, (digits_no_nul _ H).
      destruct He as [->| ->], Hs as [->|[->| ->]]; reflexivity. }
    assert (E : lacks nul ((if neg then "-" else "") ++ i ++ fr ++ ex) = true) by (rewrite !lacks_app, A, B, C, D; reflexivity).
    destruct (_ ++ _)%string; [reflexivity|exact E].
Qed.
Lemma print_no_nul j : sound j -> lacks nul (print j) = true.
Proof.
  induction j as [|b|n|s|l IH|l IH] using json_ind'; intros H; inversion H; subst.
  - reflexivity.
  - destruct b; reflexivity.
  - now apply num_no_nul.
  - apply quote_no_nul.
  - destruct l as [|x l]; [reflexivity|]. rewrite print_arr, !lacks_app. inversion IH as [|? ? Hx Hl]; subst.
    rewrite Hx by (apply H1; left; reflexivity). cbn [andb].
    assert (Hl' : forall y, In y l -> sound y) by (intros y Hy; apply H1; now right).
    clear - Hl Hl'. change (lacks nul "[" && lacks nul (arr_tail l) = true). cbn [lacks]. cbn.
    induction Hl as [|y l Hy Hl IH]; [reflexivity|]. cbn [arr_tail]. rewrite !lacks_app, Hy, IH; [reflexivity| |]; auto with datatypes.
  - destruct l as [|[k x] l]; [reflexivity|]. rewrite print_obj, !lacks_app, quote_no_nul. inversion IH as [|? ? Hx Hl]; subst. cbn [snd] in Hx.
    rewrite Hx by (apply (H1 k x); left; reflexivity). cbn [andb lacks].
    assert (Hl' : forall k' y, In (k', y) l -> sound y) by (intros k' y Hy; apply (H1 k' y); now right).
    clear - Hl Hl'. cbn.
    induction Hl as [|[k' y] l Hy Hl IH]; [reflexivity|]. cbn [obj_tail]. rewrite !lacks_app, quote_no_nul. cbn [snd] in Hy.
    rewrite Hy by (apply (Hl' k'); left; reflexivity). rewrite IH by (intros; apply (Hl' k'0); now right). reflexivity.
Qed.

(** C96: whatever the data of a record - with strings that are texts and numbers that are
    numbers - the browser reads in its cell a JSON text of the data and nothing more;
    [data] is the value a record carries. *)
Theorem C96_data_cell_partial : forall show date data r,
  sound (encode show (data (r_data r))) -> nesting (encode show (data (r_data r))) <= 10000 ->
  let shown := read_html (w_data (show_row date (fun d => format_json show (data d)) r)) in
  text_of 10000 (encode show (data (r_data r))) shown
  /\ read_value shown = Some (encode show (data (r_data r)), "").
Proof.
  intros show date data r Hs Hn. cbn zeta. unfold show_row. cbn [w_data]. unfold format_json. rewrite (sound_printable _ Hs).
  rewrite UiCellsProofs.read_back by (now apply print_no_nul). set (j := encode show (data (r_data r))) in *.
  pose proof (JsonTextProofs.read_back j "" Hs Hn (fun _ => Logic.I)) as R. rewrite app_nil_s in R. split; [|exact R].
  destruct (read_says _ _ _ R) as (w & t & E & Hw & Ht). rewrite app_nil_s in E.
  destruct (print_head j Hs) as (c & x & Ec & Hb & _). destruct w as [|a w]; [cbn in E; now rewrite E|exfalso].
  apply blanks_cons in Hw as [Ha _]. rewrite Ec in E. injection E as -> _. congruence.
Qed.
Print Assumptions C96_data_cell_partial.

(** Two records of different data never show the same cell. *)
Theorem C96_data_cells_differ_partial : forall show date data r r',
  sound (encode show (data (r_data r))) -> nesting (encode show (data (r_data r))) <= 10000 ->
  sound (encode show (data (r_data r'))) -> nesting (encode show (data (r_data r'))) <= 10000 ->
  w_data (show_row date (fun d => format_json show (data d)) r) = w_data (show_row date (fun d => format_json show (data d)) r') ->
  encode show (data (r_data r)) = encode show (data (r_data r')).
Proof.
  intros show date data r r' S1 N1 S2 N2 E.
  pose proof (proj2 (C96_data_cell_partial show date data r S1 N1)) as A.
  pose proof (proj2 (C96_data_cell_partial show date data r' S2 N2)) as B. rewrite E in A. congruence.
Qed.
Print Assumptions C96_data_cells_differ_partial.

(** A number that is none - json.Marshal refuses it - leaves the cell empty, without a
    word of the error. *)
Theorem C96_refused_data_refuted : forall show date data r,
  numbers_ok (encode show (data (r_data r))) = false ->
  w_data (show_row date (fun d => format_json show (data d)) r) = "".
Proof. intros show date data r H. unfold show_row. cbn [w_data]. unfold format_json. rewrite H. reflexivity. Qed.
Print Assumptions C96_refused_data_refuted.

(** Non-vacuity: markup, a byte 0 and quotes inside the data; and a refused number. *)
Example C96_data_inhabited :
  let show := fun f => match f with FInt z => Int z | FOther s => Lit s end in
  let v := GMap [("<b>", GSlice [GStr (String nul "&'"); GFloat (FOther "1.5"); GNil])] in
  sound (encode show v) /\ nesting (encode show v) = 2
  /\ read_html (html_escape (format_json show v)) = print (encode show v)
  /\ lacks "<" (print (encode show v)) = true
  /\ numbers_ok (encode show (GFloat (FOther "NaN"))) = false
  /\ format_json show (GSlice [GFloat (FOther "NaN")]) = "".
Proof.
  split; [|repeat split; vm_compute; reflexivity]. cbn. constructor. intros k x [[= <- <-]|[]]. split.
  { exists [60; 98; 62]. split; [repeat constructor; unfold scalar; lia|reflexivity]. }
  constructor. intros x [<-|[<-|[<-|[]]]]; constructor.
  - exists [0; 38; 39]. split; [repeat constructor; unfold scalar; lia|reflexivity].
  - exists false, "1", ".5", "". split; [reflexivity|]. split; [right; exists "1"%char, ""; repeat split; discriminate|].
    split; [right; exists "5"; repeat split; discriminate|]. split; [now left|]. left. discriminate.
Qed.
