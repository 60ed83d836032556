(** Proofs about paging. *)
From Coq Require Import Sorted PeanoNat.
From Verif Require Import Base Core CoreSpec CoreProofs DecText Text PathSpec PathProofs Http HttpSpec HttpProofs Paging PagingSpec.
Open Scope string_scope.
Open Scope list_scope.
Open Scope N_scope.

(** ** Numbers in queries *)

Definition spaceless (s : string) : bool := all_chars (fun a => negb (space a)) s.

Lemma fields_word x : spaceless x = true -> forall cur rest, (cur ++ x)%string <> "" ->
  fields_from cur (x ++ String " " rest) = (cur ++ x)%string :: fields_from "" rest.
Proof.
  unfold spaceless. induction x as [|a x IH]; intros Hx cur rest Hne; cbn [append fields_from].
  - change (space " ") with true. cbn iota. rewrite app_nil_s in *. destruct cur; [congruence|reflexivity].
  - cbn [all_chars] in Hx. apply andb_prop in Hx as [Ha Hx]. apply negb_true_iff in Ha. rewrite Ha.
    rewrite IH; auto; rewrite app_assoc_s; auto.
Qed.
Lemma fields_end x : spaceless x = true -> forall cur, (cur ++ x)%string <> "" -> fields_from cur x = [(cur ++ x)%string].
Proof.
  unfold spaceless. induction x as [|a x IH]; intros Hx cur Hne; cbn [fields_from].
  - rewrite app_nil_s in *. destruct cur; [congruence|reflexivity].
  - cbn [all_chars] in Hx. apply andb_prop in Hx as [Ha Hx]. apply negb_true_iff in Ha. rewrite Ha.
    rewrite IH; auto; rewrite app_assoc_s; auto.
Qed.
Lemma fields_join l : Forall (fun x => spaceless x = true /\ x <> "") l -> fields (join " " l) = l.
Proof.
  unfold fields. induction l as [|x l IH]; intros Hf; [reflexivity|]. inversion Hf as [|? ? [Hx Hn] Hl]; subst.
  destruct l as [|y l]; [cbn [join]; now rewrite fields_end|].
  change (join " " (x :: y :: l)) with (x ++ String " " (join " " (y :: l)))%string.
  rewrite fields_word by auto. cbn [append]. f_equal. now apply IH.
Qed.

Lemma join_head sep t x l : (t ++ join sep (x :: l) = join sep ((t ++ x)%string :: l))%string.
Proof. destruct l; [reflexivity|]. cbn [join]. now rewrite app_assoc_s. Qed.
Lemma join_last sep l x t : (join sep (l ++ [x]) ++ t = join sep (l ++ [(x ++ t)%string]))%string.
Proof.
  induction l as [|y l IH]; [reflexivity|]. cbn [app].
  destruct (l ++ [x]) eqn:E1; [destruct l; discriminate|].
  destruct (l ++ [(x ++ t)%string]) eqn:E2; [destruct l; discriminate|].
  change (join sep (y :: s :: l0)) with (y ++ sep ++ join sep (s :: l0))%string.
  change (join sep (y :: s0 :: l1)) with (y ++ sep ++ join sep (s0 :: l1))%string.
  rewrite !app_assoc_s. now rewrite IH.
Qed.

Definition clear (set : string) (s : string) : bool := all_chars (fun a => negb (in_set a set)) s.
Lemma trim_left_clear set s : clear set s = true -> trim_left set s = s.
Proof. destruct s as [|a s]; [reflexivity|]. unfold clear. cbn [all_chars trim_left]. intros H. apply andb_prop in H as [H _]. apply negb_true_iff in H. now rewrite H. Qed.
Lemma trim_right_clear set s b : clear set s = true -> in_set b set = true -> trim_right set (s ++ String b "") = s.
Proof.
  unfold clear. intros H Hb. induction s as [|a s IH]; cbn [append trim_right].
  - now rewrite Hb.
  - cbn [all_chars] in H. apply andb_prop in H as [Ha H]. rewrite (IH H). apply negb_true_iff in Ha. destruct s; [now rewrite Ha|reflexivity].
Qed.
Lemma trim_brackets s : clear "[]" s = true -> s <> "" -> trim "[]" ("[" ++ s ++ "]") = s.
Proof.
  intros H Hn. unfold trim. cbn [append trim_left]. change (in_set "[" "[]") with true. cbn iota.
  replace (trim_left "[]" (s ++ "]")) with (s ++ "]")%string.
  - now apply trim_right_clear.
  - destruct s as [|a s]; [congruence|]. unfold clear in H. cbn [all_chars] in H. apply andb_prop in H as [H _].
    apply negb_true_iff in H. cbn [append trim_left]. now rewrite H.
Qed.

Lemma dec_chars f n : (forall a, digit a <> None -> f a = true) -> all_chars f (dec n) = true.
Proof.
  intros Hf. pose proof (dec_all n) as H. induction (dec n) as [|a s IH]; [reflexivity|]. cbn in *. destruct H as [Ha H].
  rewrite Hf by exact Ha. now apply IH.
Qed.
Lemma digit_range a : digit a <> None -> 48 <= N_of_ascii a <= 57.
Proof.
  unfold digit. cbv zeta. destruct (N.leb_spec 48 (N_of_ascii a)), (N.leb_spec (N_of_ascii a) 57); cbn [andb]; intros Hd; try contradiction; lia.
Qed.
Lemma dec_nonempty n : dec n <> "".
Proof. destruct (dec_head n) as (c & rest & -> & _). discriminate. Qed.
Lemma dec_spaceless n : spaceless (dec n) = true.
Proof.
  apply dec_chars. intros a Ha. apply digit_range in Ha. unfold space. cbv zeta.
  destruct (N.leb_spec 9 (N_of_ascii a)), (N.leb_spec (N_of_ascii a) 13), (N.eqb_spec (N_of_ascii a) 32); cbn; auto; lia.
Qed.
Lemma clear_app set x y : clear set (x ++ y) = clear set x && clear set y.
Proof. apply chars_app. Qed.
Lemma dec_clear n : clear "[]" (dec n) = true.
Proof.
  apply dec_chars. intros a Ha. apply digit_range in Ha. cbn [in_set].
  destruct (Ascii.eqb_spec a "["); [subst; vm_compute in Ha; destruct Ha as [_ Ha]; congruence|].
  destruct (Ascii.eqb_spec a "]"); [subst; vm_compute in Ha; destruct Ha as [_ Ha]; congruence|]. reflexivity.
Qed.
Lemma join_clear l : clear "[]" (join "," (map dec l)) = true.
Proof.
  induction l as [|n l IH]; [reflexivity|]. destruct l as [|m l]; [apply dec_clear|].
  change (join "," (map dec (n :: m :: l))) with (dec n ++ "," ++ join "," (map dec (m :: l)))%string.
  rewrite !clear_app, dec_clear, IH. reflexivity.
Qed.
Lemma join_nonempty l : l <> [] -> join "," (map dec l) <> "".
Proof.
  destruct l as [|n l]; [congruence|]. intros _. destruct (dec_head n) as (c & rest & E & _).
  cbn [map join]. destruct (map dec l); rewrite E; discriminate.
Qed.

Lemma csv_join l : l <> [] -> csv l = join "," (map dec l).
Proof.
  intros Hne. unfold csv, sprint.
  destruct (exists_last Hne) as (l' & z & El).
  (* the list of words, the first with an opening and the last with a closing bracket *)
  assert (Hw : exists ws, ws <> [] /\ Forall (fun x => spaceless x = true /\ x <> "") ws /\
     forall sep, ("[" ++ join sep (map dec l) ++ "]" = join sep ws)%string).
  { destruct l' as [|n l'].
    - subst l. exists ["[" ++ dec z ++ "]"]%string. split; [discriminate|]. split; [|reflexivity].
      constructor; [|constructor]. split; [|discriminate]. unfold spaceless. rewrite !chars_app.
      change (all_chars _ (dec z)) with (spaceless (dec z)). now rewrite dec_spaceless.
    - exists (("[" ++ dec n)%string :: map dec l' ++ [(dec z ++ "]")%string]). split; [discriminate|]. split.
      + constructor; [|apply Forall_app; split].
        * split; [|discriminate]. unfold spaceless. rewrite chars_app. change (all_chars _ (dec n)) with (spaceless (dec n)). now rewrite dec_spaceless.
        * apply Forall_forall. intros x Hx. apply in_map_iff in Hx as (k & <- & _). split; [apply dec_spaceless|apply dec_nonempty].
        * constructor; [|constructor]. split; [|destruct (dec_head z) as (c & rest & -> & _); discriminate].
          unfold spaceless. rewrite chars_app. change (all_chars _ (dec z)) with (spaceless (dec z)). now rewrite dec_spaceless.
      + intros sep. subst l. rewrite map_app. cbn [map]. rewrite join_last. cbn [map app]. now rewrite join_head. }
  destruct Hw as (ws & Hn & Hf & Hj). rewrite Hj, fields_join by exact Hf. rewrite <- Hj.
  apply trim_brackets; [apply join_clear|now apply join_nonempty].
Qed.

Lemma parse_all l : Forall (fun n => n < 2 ^ 64) l -> parse_previous (map dec l) = l.
Proof.
  induction 1 as [|n l Hn Hl IH]; [reflexivity|]. cbn [map parse_previous]. rewrite parse_dec by exact Hn. now rewrite IH.
Qed.
Lemma csv_back l : l <> [] -> Forall (fun n => n < 2 ^ 64) l -> parse_previous (split_str "," (csv l)) = l.
Proof.
  intros Hne Hf. rewrite csv_join by exact Hne. rewrite (split_join_byte ","%char).
  - now apply parse_all.
  - destruct l; [congruence|discriminate].
  - apply forallb_forall. intros x Hx. apply in_map_iff in Hx as (n & <- & _). now apply lacks_dec.
Qed.

(** ** Queries *)

Lemma pair_back k v : pair_of (query_escape k ++ "=" ++ query_escape v) = Some (k, v).
Proof.
  unfold pair_of.
  replace (String.eqb (query_escape k ++ "=" ++ query_escape v) "") with false
    by (symmetry; apply String.eqb_neq; destruct (query_escape k); discriminate).
  rewrite !lacks_app, !(escape_lacks ";") by (discriminate || reflexivity). cbn [orb negb andb lacks].
  change (Ascii.eqb "=" ";") with false. cbn [negb andb orb].
  change ("=" ++ query_escape v)%string with (String "=" (query_escape v)).
  rewrite cut_lacks by (apply escape_lacks; discriminate || reflexivity).
  now rewrite !unescape_escape.
Qed.
Lemma query_back kvs : kvs <> [] -> parse_query (encode_query kvs) = kvs.
Proof.
  intros Hne. unfold parse_query, encode_query. rewrite (split_join_byte "&"%char).
  - clear Hne. induction kvs as [|[k v] kvs IH]; [reflexivity|]. cbn [map pairs_of fst snd]. rewrite pair_back. now rewrite IH.
  - destruct kvs; [congruence|discriminate].
  - apply forallb_forall. intros x Hx. apply in_map_iff in Hx as ([k v] & <- & _). cbn [fst snd].
    rewrite !lacks_app, !(escape_lacks "&") by (discriminate || reflexivity). reflexivity.
Qed.
Lemma query_lacks c kvs : c <> "%"%char -> c <> "+"%char -> c <> "&"%char -> c <> "="%char -> unreserved c = false ->
  lacks c (encode_query kvs) = true.
Proof.
  intros H1 H2 H3 H4 H5. unfold encode_query.
  assert (Hp : forall kv : string * string, lacks c (query_escape (fst kv) ++ "=" ++ query_escape (snd kv)) = true).
  { intros [k v]. cbn [fst snd]. rewrite !lacks_app, !(escape_lacks c) by assumption. cbn [lacks].
    destruct (Ascii.eqb_spec "=" c); [congruence|reflexivity]. }
  induction kvs as [|kv kvs IH]; [reflexivity|]. destruct kvs as [|kv2 kvs].
  - apply Hp.
  - cbn [map] in *. cbn [join] in *. rewrite lacks_app, Hp. cbn [andb]. rewrite lacks_app. apply andb_true_intro. split; [|exact IH].
    cbn [lacks]. destruct (Ascii.eqb_spec "&" c); [congruence|reflexivity].
Qed.

(** ** Paths *)

Lemma path_back s : unescape false (path_escape s) = Some s.
Proof.
  induction s as [|a s IH]; [reflexivity|].
  destruct a as [[] [] [] [] [] [] [] []]; cbn [path_escape];
    match goal with |- context [path_plain ?x] => let v := eval vm_compute in (path_plain x) in change (path_plain x) with v end;
    cbn iota; cbn [unescape];
    repeat match goal with |- context [Ascii.eqb ?x ?y] => let v := eval vm_compute in (Ascii.eqb x y) in change (Ascii.eqb x y) with v end;
    cbn iota; cbn [andb];
    repeat match goal with |- context [unhex ?x] => let v := eval vm_compute in (unhex x) in change (unhex x) with v end;
    cbn iota; rewrite IH; reflexivity.
Qed.
Lemma path_lacks c s : c = "?"%char \/ c = "#"%char -> lacks c (path_escape s) = true.
Proof.
  intros Hc. induction s as [|a s IH]; [reflexivity|].
  destruct Hc as [->| ->]; destruct a as [[] [] [] [] [] [] [] []]; cbn [path_escape];
    match goal with |- context [path_plain ?x] => let v := eval vm_compute in (path_plain x) in change (path_plain x) with v end;
    cbn iota; cbn [lacks]; rewrite IH; vm_compute; reflexivity.
Qed.

Lemma plain_facts s : plain s -> lacks "?" s = true /\ lacks "#" s = true
  /\ all_chars (fun a => negb (control a)) s = true /\ unescape false s = Some s.
Proof.
  induction s as [|a s IH]; [now repeat split|]. cbn [plain lacks all_chars unescape].
  intros [(H1 & H2 & H3 & H4 & H5) Hs]. destruct (IH Hs) as (A & B & C & D). rewrite A, B, C, D.
  rewrite (proj2 (Ascii.eqb_neq a "?")), (proj2 (Ascii.eqb_neq a "#")), (proj2 (Ascii.eqb_neq a "%")) by assumption.
  repeat split; auto. unfold control. cbv zeta. destruct (N.ltb_spec (N_of_ascii a) 32); [lia|].
  destruct (N.eqb_spec (N_of_ascii a) 127); [contradiction|]. reflexivity.
Qed.
Lemma plain_app x y : plain x -> plain y -> plain (x ++ y).
Proof. induction x as [|a x IH]; cbn [plain append]; [auto|]. intros [H1 H2] Hy. split; auto. Qed.
Lemma letters_plain t : only_letters t -> plain t.
Proof.
  induction t as [|a t IH]; cbn [only_letters plain]; [auto|]. intros [Ha Ht]. split; [|auto].
  unfold plain_letter in Ha. cbv zeta in Ha. unfold plain_byte.
  repeat split; try (intros ->; vm_compute in Ha; intuition (discriminate || congruence)); intros; lia.
Qed.
Lemma base_plain pl : linkable pl -> plain (base_uri pl).
Proof.
  destruct pl as [n|t]; cbn [linkable base_uri]; intros [H1 H2].
  - apply plain_app; [|assumption]. repeat split; try (vm_compute; congruence); discriminate.
  - apply plain_app; [|now apply letters_plain]. repeat split; try (vm_compute; congruence); discriminate.
Qed.

Lemma ui_two a b : a = "s" \/ a = "a" -> addressable b ->
  ui_route ("/" ++ a ++ "/" ++ b) = if String.eqb a "s" then Some (InStream b) else if all_chars letter b then Some (OfType b) else None.
Proof.
  intros Ha Hb. assert (Hr : clean_path ("/" ++ a ++ "/" ++ b) = ("/" ++ a ++ "/" ++ b)%string).
  { destruct Hb as (Hb & Hb0 & Hb1 & Hb2). unfold clean_path.
    rewrite split_slash by (destruct Ha as [->| ->]; reflexivity || assumption).
    cbn [clean_segments]. cbn [String.eqb orb].
    rewrite (proj2 (String.eqb_neq b "")), (proj2 (String.eqb_neq b ".")), (proj2 (String.eqb_neq b "..")) by assumption.
    destruct Ha as [->| ->]; cbn [String.eqb Ascii.eqb Bool.eqb orb clean_segments rev app join]; unfold last_empty; cbn [last];
    rewrite (proj2 (String.eqb_neq b "")) by assumption; cbn [andb]; rewrite app_nil_s; reflexivity. }
  unfold ui_route. rewrite Hr, String.eqb_refl. cbn [negb]. destruct Hb as (Hb & Hb0 & Hb1 & Hb2).
  rewrite split_slash by (destruct Ha as [->| ->]; reflexivity || assumption).
  rewrite (proj2 (String.eqb_neq b "")) by assumption. destruct Ha as [->| ->]; reflexivity.
Qed.
Lemma letters_letter t : only_letters t -> all_chars letter t = true.
Proof.
  intros H. destruct (letters_chars t H) as (H1 & _ & H2). clear H. induction t as [|a t IH]; [reflexivity|].
  cbn [all_chars lacks] in *. apply andb_prop in H1 as [A1 B1]. apply andb_prop in H2 as [A2 B2]. rewrite IH by assumption.
  unfold letter. now rewrite A1, A2.
Qed.
Lemma ui_base pl : linkable pl -> ui_route (base_uri pl) = Some pl.
Proof.
  destruct pl as [n|t]; cbn [linkable base_uri].
  - intros [H1 _]. exact (ui_two "s" n (or_introl eq_refl) H1).
  - intros [H1 H2]. pose proof (letters_chars t H1) as (_ & Hs & _).
    assert (addressable t) as Ha.
    { split; [exact Hs|]. split; [exact H2|]. split; intros ->; cbn in H1; unfold plain_letter in H1; vm_compute in H1;
        destruct H1 as [H1 _]; intuition (discriminate || congruence). }
    pose proof (ui_two "a" t (or_intror eq_refl) Ha) as E. rewrite letters_letter in E by exact H1. exact E.
Qed.

(** ** Following a link *)

Lemma link_back pl kvs : linkable pl -> kvs <> [] ->
  exists text, with_query (base_uri pl) (encode_query kvs) = Some text /\ text <> ""
    /\ target_of (followed text) = Some (pl, from_query (encode_query kvs)).
Proof.
  intros Hl Hk. pose proof (base_plain pl Hl) as Hp. pose proof (ui_base pl Hl) as Hr.
  destruct (plain_facts _ Hp) as (A & B & C & D). set (base := base_uri pl) in *.
  unfold with_query. rewrite (cut_none _ _ B), (cut_none _ _ A), C, D. cbn [negb].
  change (unescape false "") with (Some ""). cbn iota.
  set (p := if all_chars path_valid base then base else path_escape base).
  assert (Hq : lacks "?" p = true /\ lacks "#" p = true /\ unescape false p = Some base).
  { unfold p. destruct (all_chars path_valid base); [auto|]. split; [apply path_lacks; auto|]. split; [apply path_lacks; auto|apply path_back]. }
  destruct Hq as (E & F & G). eexists. split; [reflexivity|]. split; [destruct p; discriminate|].
  rewrite app_nil_s. unfold followed. rewrite cut_none.
  2:{ rewrite !lacks_app, F. cbn [andb]. rewrite query_lacks by (discriminate || reflexivity). reflexivity. }
  cbn [fst]. unfold target_of. change ("?" ++ encode_query kvs)%string with (String "?" (encode_query kvs)).
  rewrite cut_lacks by exact E. rewrite G, Hr. reflexivity.
Qed.

Lemma next_back pl pg next : linkable pl -> sane pg -> pg_current pg < next -> next < 2 ^ 64 ->
  exists text, next_link (base_uri pl) pg next = Some text /\ text <> ""
    /\ target_of (followed text) = Some (pl, mk_pagination (pg_items pg) next (pg_previous pg ++ [pg_current pg])).
Proof.
  intros Hl ((Hi1 & Hi2) & Hc & Hp) Hn Hb. unfold next_link. rewrite (proj2 (N.ltb_lt _ _) Hn).
  destruct (link_back pl [("current", dec next); ("itemsPerPage", dec (pg_items pg)); ("previous", csv (pg_previous pg ++ [pg_current pg]))] Hl ltac:(discriminate))
    as (text & E & Ht & F). exists text. split; [exact E|]. split; [exact Ht|]. rewrite F. do 2 f_equal.
  unfold from_query. rewrite query_back by discriminate. cbn [get_value]. cbn [String.eqb Ascii.eqb Bool.eqb].
  unfold from_string, number_or. rewrite !parse_dec by (change two64 with (2 ^ 64); lia).
  rewrite csv_back.
  - unfold new_pagination. cbv zeta. destruct (N.leb_spec (pg_items pg) 0); [lia|]. destruct (N.ltb_spec 1000 (pg_items pg)); [lia|]. reflexivity.
  - destruct (pg_previous pg); discriminate.
  - apply Forall_app. split; [exact Hp|]. constructor; [exact Hc|constructor].
Qed.

Lemma previous_back pl pg k ks : linkable pl -> sane pg -> pg_previous pg = ks ++ [k] ->
  exists text, previous_link (base_uri pl) pg = Some text /\ text <> ""
    /\ target_of (followed text) = Some (pl, mk_pagination (pg_items pg) k ks).
Proof.
  intros Hl ((Hi1 & Hi2) & Hc & Hp) E. unfold previous_link. rewrite E, rev_app_distr. cbn [rev app]. rewrite rev_involutive.
  rewrite E in Hp. apply Forall_app in Hp as [Hks Hk]. inversion Hk as [|? ? Hk' _]; subst.
  set (kvs := [("current", dec k); ("itemsPerPage", dec (pg_items pg))] ++ match ks with [] => [] | _ => [("previous", csv ks)] end).
  destruct (link_back pl kvs Hl ltac:(discriminate)) as (text & E1 & Ht & F).
  exists text. split; [exact E1|]. split; [exact Ht|]. rewrite F. do 2 f_equal.
  unfold from_query. rewrite query_back by discriminate.
  assert (G : get_value "itemsPerPage" kvs = dec (pg_items pg) /\ get_value "current" kvs = dec k
    /\ parse_previous (split_str "," (get_value "previous" kvs)) = ks).
  { unfold kvs. destruct ks as [|k0 ks0]; [now repeat split|]. split; [reflexivity|]. split; [reflexivity|].
    apply csv_back; [discriminate|exact Hks]. }
  destruct G as (G1 & G2 & G3). rewrite G1, G2. unfold from_string, number_or. rewrite G3.
  rewrite !parse_dec by (change two64 with (2 ^ 64); lia).
  unfold new_pagination. cbv zeta. destruct (N.leb_spec (pg_items pg) 0); [lia|]. destruct (N.ltb_spec 1000 (pg_items pg)); [lia|]. reflexivity.
Qed.

(** ** The query of a link, wherever it leads *)

Lemma cut_before c s : lacks c (fst (cut_byte c s)) = true.
Proof.
  induction s as [|a s IH]; [reflexivity|]. cbn [cut_byte]. destruct (Ascii.eqb a c) eqn:E; [reflexivity|].
  destruct (cut_byte c s) as [x y]. cbn [fst lacks] in *. now rewrite E, IH.
Qed.
Lemma cut_part c d s : lacks d s = true -> lacks d (fst (cut_byte c s)) = true.
Proof.
  induction s as [|a s IH]; [reflexivity|]. cbn [cut_byte lacks]. intros H. apply andb_true_iff in H as [H1 H2].
  destruct (Ascii.eqb a c); [reflexivity|]. specialize (IH H2). destruct (cut_byte c s) as [x y]. cbn [fst lacks] in *. now rewrite H1, IH.
Qed.
Lemma query_there base kvs text : with_query base (encode_query kvs) = Some text ->
  text <> "" /\ query_of text = Some (encode_query kvs).
Proof.
  unfold with_query. pose proof (cut_before "#" base) as Hh. destruct (cut_byte "#" base) as [before frag]. cbn [fst] in Hh.
  pose proof (cut_before "?" before) as Hq. pose proof (cut_part "?" "#" before Hh) as Hh'.
  destruct (cut_byte "?" before) as [p old]. cbn [fst] in Hq, Hh'.
  destruct (negb _); [discriminate|]. destruct (unescape false p) as [path|]; [|discriminate].
  destruct (unescape false _); [|discriminate]. intros H.
  set (p' := if all_chars path_valid p then p else path_escape path) in H.
  assert (Hp : lacks "?" p' = true /\ lacks "#" p' = true).
  { unfold p'. destruct (all_chars path_valid p); [auto|]. split; apply path_lacks; auto. }
  destruct Hp as [A B]. set (tail := match frag with Some (String a f) => ("#" ++ String a f)%string | _ => "" end) in H.
  assert (Ht : text = (p' ++ "?" ++ encode_query kvs ++ tail)%string) by congruence. clear H. subst text.
  split; [destruct p'; discriminate|]. unfold query_of.
  assert (E : fst (cut_byte "#" (p' ++ "?" ++ encode_query kvs ++ tail)%string) = (p' ++ "?" ++ encode_query kvs)%string).
  { assert (L : lacks "#" (p' ++ "?" ++ encode_query kvs)%string = true).
    { rewrite !lacks_app, B. cbn [andb]. rewrite query_lacks by (discriminate || reflexivity). reflexivity. }
    unfold tail. destruct frag as [[|a f]|].
    - rewrite app_nil_s. now rewrite cut_none.
    - replace (p' ++ "?" ++ encode_query kvs ++ "#" ++ String a f)%string with ((p' ++ "?" ++ encode_query kvs) ++ String "#" (String a f))%string
        by (rewrite !app_assoc_s; reflexivity). now rewrite cut_lacks.
    - rewrite app_nil_s. now rewrite cut_none. }
  rewrite E. change ("?" ++ encode_query kvs)%string with (String "?" (encode_query kvs)). now rewrite cut_lacks.
Qed.

Lemma next_query base pg next text : sane pg -> pg_current pg < next -> next < 2 ^ 64 ->
  next_link base pg next = Some text -> exists q, text <> "" /\ query_of text = Some q
    /\ from_query q = mk_pagination (pg_items pg) next (pg_previous pg ++ [pg_current pg]).
Proof.
  intros ((Hi1 & Hi2) & Hc & Hp) Hn Hb. unfold next_link. rewrite (proj2 (N.ltb_lt _ _) Hn).
  intros H. apply query_there in H as [Hne H]. eexists. split; [exact Hne|]. split; [exact H|].
  unfold from_query. rewrite query_back by discriminate. cbn [get_value]. cbn [String.eqb Ascii.eqb Bool.eqb].
  unfold from_string, number_or. rewrite !parse_dec by (change two64 with (2 ^ 64); lia).
  rewrite csv_back.
  - unfold new_pagination. cbv zeta. destruct (N.leb_spec (pg_items pg) 0); [lia|]. destruct (N.ltb_spec 1000 (pg_items pg)); [lia|]. reflexivity.
  - destruct (pg_previous pg); discriminate.
  - apply Forall_app. split; [exact Hp|]. constructor; [exact Hc|constructor].
Qed.

Lemma previous_query base pg k ks text : sane pg -> pg_previous pg = ks ++ [k] ->
  previous_link base pg = Some text -> exists q, text <> "" /\ query_of text = Some q
    /\ from_query q = mk_pagination (pg_items pg) k ks.
Proof.
  intros ((Hi1 & Hi2) & Hc & Hp) E. unfold previous_link. rewrite E, rev_app_distr. cbn [rev app]. rewrite rev_involutive.
  rewrite E in Hp. apply Forall_app in Hp as [Hks Hk]. inversion Hk as [|? ? Hk' _]; subst.
  set (kvs := [("current", dec k); ("itemsPerPage", dec (pg_items pg))] ++ match ks with [] => [] | _ => [("previous", csv ks)] end).
  intros H. apply (query_there base kvs text) in H as [Hne H]. exists (encode_query kvs). split; [exact Hne|]. split; [exact H|].
  unfold from_query. rewrite (query_back kvs) by discriminate.
  assert (G : get_value "itemsPerPage" kvs = dec (pg_items pg) /\ get_value "current" kvs = dec k
    /\ parse_previous (split_str "," (get_value "previous" kvs)) = ks).
  { unfold kvs. destruct ks as [|k0 ks0]; [now repeat split|]. split; [reflexivity|]. split; [reflexivity|].
    apply csv_back; [discriminate|exact Hks]. }
  destruct G as (G1 & G2 & G3). rewrite G1, G2. unfold from_string, number_or. rewrite G3.
  rewrite !parse_dec by (change two64 with (2 ^ 64); lia).
  unfold new_pagination. cbv zeta. destruct (N.leb_spec (pg_items pg) 0); [lia|]. destruct (N.ltb_spec 1000 (pg_items pg)); [lia|]. reflexivity.
Qed.

Lemma no_previous base pg : pg_previous pg = [] -> previous_link base pg = Some "".
Proof. intros E. unfold previous_link. now rewrite E. Qed.

Lemma first_target pl target n : linkable pl -> first_request pl target n ->
  target_of target = Some (pl, mk_pagination n 0 []) /\ 1 <= n <= 1000.
Proof.
  intros Hl H. pose proof (ui_base pl Hl) as Hr. destruct H as [p Hp Hq|p m Hp Hq Hm]; apply spelled_unescape in Hp; unfold target_of.
  - rewrite cut_none by exact Hq. rewrite Hp, Hr. split; [reflexivity|lia].
  - change ("?itemsPerPage=" ++ dec m)%string with (String "?" ("itemsPerPage=" ++ dec m)).
    rewrite cut_lacks by exact Hq. rewrite Hp, Hr. split.
    + do 2 f_equal. unfold from_query. change ("itemsPerPage=" ++ dec m)%string with ("itemsPerPage" ++ "=" ++ dec m)%string.
      assert (query_escape (dec m) = dec m) as Ed.
      { pose proof (dec_all m) as Hd. induction (dec m) as [|a s IH]; [reflexivity|]. cbn [all_digits] in Hd. destruct Hd as [Ha Hd].
        cbn [query_escape]. apply digit_range in Ha. replace (unreserved a) with true; [now rewrite IH|].
        symmetry. unfold unreserved. cbv zeta. destruct (N.leb_spec 48 (N_of_ascii a)); [|lia]. destruct (N.leb_spec (N_of_ascii a) 57); [reflexivity|lia]. }
      unfold from_query.
      assert (parse_query ("itemsPerPage" ++ "=" ++ dec m) = [("itemsPerPage", dec m)]) as ->.
      { pose proof (query_back [("itemsPerPage", dec m)] ltac:(discriminate)) as Q. unfold encode_query in Q. cbn [map fst snd join] in Q.
        rewrite Ed in Q. exact Q. }
      cbn [get_value]. cbn [String.eqb Ascii.eqb Bool.eqb]. unfold from_string, number_or. rewrite parse_dec by exact Hm.
      change (parse_uint "") with (@None N). change (parse_previous (split_str "," "")) with (@nil N). cbn iota.
      unfold new_pagination, page_size. cbv zeta. destruct (N.leb_spec m 0), (N.eqb_spec m 0); try lia; [reflexivity|].
      destruct (N.ltb_spec 1000 m); reflexivity.
    + unfold page_size. destruct (N.eqb_spec m 0); [lia|]. destruct (N.ltb_spec 1000 m); lia.
Qed.

(** ** Pages *)

Lemma filter_none {A} (f : A -> bool) l : (forall x, In x l -> f x = false) -> filter f l = [].
Proof. induction l as [|a l IH]; cbn; intros H; [reflexivity|]. rewrite (H a) by auto. apply IH. auto. Qed.
Lemma filter_all {A} (f : A -> bool) l : (forall x, In x l -> f x = true) -> filter f l = l.
Proof. induction l as [|a l IH]; cbn; intros H; [reflexivity|]. rewrite (H a) by auto. f_equal. apply IH. auto. Qed.
Lemma before_error_map l : before_error (map RRec l) = l.
Proof. induction l; cbn; congruence. Qed.

Lemma firstn_next {A} (l : list A) : forall n x tl, skipn n l = x :: tl -> firstn (S n) l = firstn n l ++ [x].
Proof.
  induction l as [|a l IH]; intros n x tl; [destruct n; discriminate|].
  destruct n as [|n]; [cbn; congruence|]. cbn [skipn]. intros H. cbn [firstn app]. f_equal. change (firstn (S n) l = firstn n l ++ [x]).
  eapply IH; exact H.
Qed.

(** What a page of a place shows. *)
Lemma page_of St (store : St -> op -> St * out) s pl view pg before rest :
  linkable pl -> holds store s pl view -> sane pg ->
  view = before ++ rest ->
  Forall (fun r => place_index pl r < pg_current pg) before -> Forall (fun r => pg_current pg <= place_index pl r) rest ->
  exists p, show_page St store s pl pg = (s, Page p)
    /\ p_records p = firstn (N.to_nat (pg_items pg)) rest
    /\ previous_link (base_uri pl) pg = Some (p_previous p)
    /\ match skipn (N.to_nat (pg_items pg)) rest with
       | [] => p_next p = ""
       | r :: _ => p_next p <> "" /\ pg_current pg < place_index pl r < 2 ^ 64
           /\ target_of (followed (p_next p))
              = Some (pl, mk_pagination (pg_items pg) (place_index pl r) (pg_previous pg ++ [pg_current pg]))
       end.
Proof.
  intros Hl (Hread & Htot & Hsort & Hbound) Hsane Hv Hbef Hrest.
  destruct (Hread (pg_current pg)) as (l & El & Hlist).
  assert (Hbe : before_error l = rest).
  { destruct Hlist as [->|(Hv0 & e & ->)].
    - rewrite before_error_map, Hv, filter_app, filter_none, filter_all; [reflexivity| |].
      + intros r Hr. rewrite Forall_forall in Hrest. apply N.leb_le. now apply Hrest.
      + intros r Hr. rewrite Forall_forall in Hbef. specialize (Hbef r Hr). apply N.leb_gt. exact Hbef.
    - rewrite Hv0 in Hv. symmetry in Hv. apply app_eq_nil in Hv as [_ ->]. reflexivity. }
  set (n := N.to_nat (pg_items pg)).
  assert (Hprev : exists pt, previous_link (base_uri pl) pg = Some pt).
  { destruct (pg_previous pg) as [|k ks] eqn:Ep.
    - exists "". now apply no_previous.
    - assert (pg_previous pg <> []) as Hne by (rewrite Ep; discriminate).
      destruct (exists_last Hne) as (ks' & k' & E'). destruct (previous_back pl pg k' ks' Hl Hsane E') as (t & Et & _). eauto. }
  destruct Hprev as (pt & Ept).
  destruct Hsane as (Hitems & Hcur & Hps) eqn:Esane. clear Esane.
  unfold show_page. rewrite El.
  destruct (read_n_ok (pg_items pg + 1) l) as (it & Eit & _). rewrite Eit, Hbe.
  replace (N.to_nat (pg_items pg + 1)) with (S n) by (unfold n; lia).
  (* the page itself, whatever the total says *)
  assert (Hkey : exists p,
    match links (base_uri pl) pg (if pg_items pg <? N.of_nat (length (firstn (S n) rest))
             then match rev (firstn (S n) rest) with r :: _ => place_index pl r | [] => pg_current pg end else pg_current pg) with
    | Some (a, b) => Page (mk_page (if pg_items pg <? N.of_nat (length (firstn (S n) rest)) then removelast (firstn (S n) rest) else firstn (S n) rest) a b)
    | None => NoPage end = Page p
    /\ p_records p = firstn n rest /\ Some pt = Some (p_previous p)
    /\ match skipn n rest with
       | [] => p_next p = ""
       | r :: _ => p_next p <> "" /\ pg_current pg < place_index pl r < 2 ^ 64
           /\ target_of (followed (p_next p))
              = Some (pl, mk_pagination (pg_items pg) (place_index pl r) (pg_previous pg ++ [pg_current pg]))
       end).
  { unfold links. rewrite Ept.
    destruct (skipn n rest) as [|r tl] eqn:Esk.
    - assert (Hlen : (length rest <= n)%nat).
      { pose proof (skipn_length n rest) as Hs. rewrite Esk in Hs. cbn in Hs. lia. }
      rewrite firstn_all2 by lia.
      destruct (N.ltb_spec (pg_items pg) (N.of_nat (length rest))); [unfold n in Hlen; lia|].
      unfold next_link. rewrite N.ltb_irrefl. eexists. split; [reflexivity|]. cbn [p_records p_previous p_next].
      rewrite firstn_all2 by lia. auto.
    - assert (Hfn : firstn (S n) rest = firstn n rest ++ [r]) by (eapply firstn_next; exact Esk).
      assert (Hlen : length (firstn n rest) = n).
      { rewrite firstn_length. pose proof (skipn_length n rest) as Hs. rewrite Esk in Hs. cbn in Hs. lia. }
      rewrite Hfn, app_length, Hlen. cbn [length].
      destruct (N.ltb_spec (pg_items pg) (N.of_nat (n + 1))); [|unfold n in *; lia].
      rewrite rev_app_distr. cbn [rev app]. rewrite removelast_last.
      assert (Hin : rest = firstn n rest ++ r :: tl) by (rewrite <- Esk; symmetry; apply firstn_skipn).
      assert (Hgt : pg_current pg < place_index pl r).
      { (* some record of the page comes before it *)
        destruct (firstn n rest) as [|r0 tl0] eqn:Ef; [cbn in Hlen; unfold n in Hlen; lia|].
        assert (pg_current pg <= place_index pl r0).
        { rewrite Forall_forall in Hrest. apply Hrest. rewrite Hin. now left. }
        assert (place_index pl r0 < place_index pl r); [|lia].
        rewrite Hv, Hin in Hsort. clear -Hsort. induction before as [|b before IH]; cbn in Hsort.
        - inversion Hsort as [|? ? _ Hf]; subst. rewrite Forall_forall in Hf. apply Hf. apply in_app_iff. right. now left.
        - inversion Hsort; subst. auto. }
      assert (Hlt : place_index pl r < 2 ^ 64).
      { rewrite Forall_forall in Hbound. apply Hbound. rewrite Hv, Hin. apply in_app_iff. right. apply in_app_iff. right. now left. }
      destruct (next_back pl pg (place_index pl r) Hl (conj Hitems (conj Hcur Hps)) Hgt Hlt) as (text & Et & Hne & Ht).
      rewrite Et. eexists. split; [reflexivity|]. cbn [p_records p_previous p_next]. split; [reflexivity|]. split; [reflexivity|]. split; [exact Hne|]. split; [split; assumption|exact Ht]. }
  destruct Hkey as (p & Ep & Hp1 & Hp2 & Hp3). exists p.
  split; [|split; [exact Hp1|split; [rewrite Ept; exact Hp2|exact Hp3]]].
  cbv zeta. rewrite Ep. destruct pl as [name|t]; [|reflexivity].
  destruct Htot as (tot & Etot). rewrite Etot. reflexivity.
Qed.

Section Visits.
Variable St : Type.
Variable store : St -> op -> St * out.
Variable pl : place.
Variable state : nat -> St.
Variable view : nat -> list record.
Hypothesis Hl : linkable pl.
Hypothesis Hholds : forall i, holds store (state i) pl (view i).
Hypothesis Hgrow : forall i, exists more, view (S i) = view i ++ more.

Let see (i : nat) (t : string) : ui_answer := snd (ui_step St store (state i) t).

Lemma index_split (f : record -> N) l1 r l2 : StronglySorted (fun a b => f a < f b) (l1 ++ r :: l2) ->
  Forall (fun x => f x < f r) l1 /\ Forall (fun x => f r <= f x) (r :: l2).
Proof.
  induction l1 as [|a l1 IH]; cbn; intros H.
  - inversion H as [|? ? _ Hf]; subst. split; [constructor|]. constructor; [lia|]. rewrite Forall_forall in *. intros x Hx. specialize (Hf x Hx). lia.
  - inversion H as [|? ? Hs Hf]; subst. destruct (IH Hs) as [H1 H2]. split; [|exact H2]. constructor; [|exact H1].
    rewrite Forall_forall in Hf. apply Hf. apply in_app_iff. right. now left.
Qed.

(** The state of a visit: what was shown so far lies before the current index. *)
Definition ready (i : nat) (target : string) (n : N) (before : list record) : Prop :=
  exists pg rest, target_of target = Some (pl, pg) /\ sane pg /\ pg_items pg = n /\ view i = before ++ rest
    /\ Forall (fun r => place_index pl r < pg_current pg) before /\ Forall (fun r => pg_current pg <= place_index pl r) rest.

Lemma ready_step i target n before : ready i target n before -> exists p,
  see i target = Page p /\ exists rest, view i = before ++ p_records p ++ rest
  /\ (length (p_records p) <= N.to_nat n)%nat
  /\ (p_next p = "" -> rest = [])
  /\ (p_next p <> "" -> length (p_records p) = N.to_nat n /\ ready (S i) (followed (p_next p)) n (before ++ p_records p)).
Proof.
  intros (pg & rest & Ht & Hs & Hn & Hv & Hb & Hr).
  destruct (page_of St store (state i) pl (view i) pg before rest Hl (Hholds i) Hs Hv Hb Hr) as (p & Ep & Erec & _ & Hp).
  exists p. split.
  { unfold see, ui_step. rewrite Ht, Ep. reflexivity. }
  exists (skipn (N.to_nat (pg_items pg)) rest). rewrite Erec.
  split; [rewrite firstn_skipn; exact Hv|].
  split; [rewrite firstn_length; subst n; lia|].
  destruct (skipn (N.to_nat (pg_items pg)) rest) as [|r tl] eqn:Esk.
  { split; [reflexivity|]. intros H. congruence. }
  destruct Hp as (Hne & Hidx & Htgt). split; [intros H; congruence|]. intros _.
  assert (Hin : rest = firstn (N.to_nat (pg_items pg)) rest ++ r :: tl) by (rewrite <- Esk; symmetry; apply firstn_skipn).
  split.
  { rewrite firstn_length. pose proof (skipn_length (N.to_nat (pg_items pg)) rest) as Hk. rewrite Esk in Hk. cbn in Hk. subst n. lia. }
  destruct (Hgrow i) as (more & Hm).
  assert (Hv2 : view (S i) = (before ++ firstn (N.to_nat (pg_items pg)) rest) ++ r :: (tl ++ more)).
  { rewrite Hm, Hv. rewrite Hin at 1. rewrite <- !app_assoc. reflexivity. }
  destruct (Hholds (S i)) as (_ & _ & Hsort & _). rewrite Hv2 in Hsort. destruct (index_split _ _ _ _ Hsort) as [H1 H2].
  exists (mk_pagination (pg_items pg) (place_index pl r) (pg_previous pg ++ [pg_current pg])), (r :: tl ++ more).
  destruct Hs as (Hi & Hc & Hps).
  split; [exact Htgt|]. split.
  { split; [exact Hi|]. cbn [pg_current pg_previous]. split; [apply Hidx|]. apply Forall_app. split; [exact Hps|]. constructor; [exact Hc|constructor]. }
  split; [exact Hn|]. split; [exact Hv2|]. split; assumption.
Qed.

Lemma visit_ok i target ps : visit see i target ps -> forall n before, ready i target n before ->
  (exists rest, view (i + length ps - 1)%nat = before ++ concat (map p_records ps) ++ rest
     /\ (p_next (last ps (mk_page [] "" "")) = "" -> rest = []))
  /\ Forall (fun p => (length (p_records p) <= N.to_nat n)%nat) ps
  /\ Forall (fun p => p_next p <> "" -> length (p_records p) = N.to_nat n) ps.
Proof.
  intros H. induction H as [i target p E|i target p ps E Hne Hv IH]; intros n before Hr;
    destruct (ready_step i target n before Hr) as (p' & Ep & rest & Hview & Hlen & Hlast & Hmore);
    rewrite E in Ep; injection Ep as <-.
  - split; [|split].
    + exists rest. cbn [map concat last length]. rewrite app_nil_r. replace (i + 1 - 1)%nat with i by lia. auto.
    + constructor; [exact Hlen|constructor].
    + constructor; [|constructor]. intros H. now apply Hmore.
  - destruct (Hmore Hne) as [Hlen' Hready]. destruct (IH n _ Hready) as ((rest2 & Hv2 & Hl2) & Hf1 & Hf2).
    assert (Hps : ps <> []) by (destruct Hv; discriminate).
    split; [|split].
    + exists rest2. cbn [map concat length]. replace (i + S (length ps) - 1)%nat with (S i + length ps - 1)%nat by (destruct ps; [congruence|cbn; lia]).
      rewrite Hv2, <- !app_assoc. split; [reflexivity|]. intros Hq. apply Hl2. destruct ps; [congruence|exact Hq].
    + constructor; assumption.
    + constructor; [|assumption]. intros _. exact Hlen'.
Qed.

(** A visit can always go on until there is no next link. *)
Lemma visit_exists k : forall i target n before, ready i target n before -> exists ps,
  visit see i target ps /\ (length ps <= S k)%nat /\ (length ps = S k \/ p_next (last ps (mk_page [] "" "")) = "").
Proof.
  induction k as [|k IH]; intros i target n before Hr;
    destruct (ready_step i target n before Hr) as (p & Ep & rest & Hview & Hlen & Hlast & Hmore).
  - exists [p]. split; [now constructor|]. split; [cbn; lia|now left].
  - destruct (String.eqb_spec (p_next p) "") as [E|E].
    + exists [p]. split; [now constructor|]. split; [cbn; lia|]. right. exact E.
    + destruct (Hmore E) as [_ Hready]. destruct (IH _ _ _ _ Hready) as (ps & Hv & Hl1 & Hl2).
      exists (p :: ps). split; [now apply VNext|]. cbn [length]. split; [lia|].
      destruct Hl2 as [Hl2|Hl2]; [left; lia|right]. destruct ps; [inversion Hv|exact Hl2].
Qed.

Lemma first_ready target n : first_request pl target n -> ready 0 target n [] /\ 1 <= n <= 1000.
Proof.
  intros Hf. destruct (first_target pl target n Hl Hf) as [Ht Hn]. split; [|exact Hn].
  exists (mk_pagination n 0 []), (view 0%nat). split; [exact Ht|]. split.
  { split; [exact Hn|]. cbn. split; [lia|constructor]. }
  split; [reflexivity|]. split; [reflexivity|]. split; [constructor|]. apply Forall_forall. intros r _. cbn. lia.
Qed.
End Visits.
