(** The JSON reader reads exactly the texts of JsonGrammar.v: soundness of strings and
    numbers, then both directions for values. *)
From Coq Require Import ZArith PeanoNat ZifyN DecimalString DecimalN.
From Coq Require Decimal DecimalFacts.
From Verif Require Import Base Text DecText Json JsonSpec JsonProofs JsonText JsonTextSpec JsonTextProofs JsonGrammar JsonGrammarProofs.
Open Scope string_scope.
Open Scope N_scope.
Ltac Zify.zify_post_hook ::= Z.div_mod_to_equations.

(** * Strings *)

Lemma hex_bound h u : hex_text h u -> u < 65536.
Proof.
  intros (a & b & c & d & i & j & k & l & _ & Ha & Hb & Hc & Hd & ->).
  assert (T : forall x n, hex_digit x n -> (n < 16)%nat).
  { intros x n [H|H]; do 16 (destruct n as [|n]; [lia|]); discriminate H. }
  apply T in Ha, Hb, Hc, Hd. lia.
Qed.

Lemma escape_listed e t : simple_escape e = Some t -> exists b, t = String b "" /\
  In (e, b) [("034", "034"); ("092", "092"); ("/", "/"); ("b", "008"); ("f", "012"); ("n", "010"); ("r", "013"); ("t", "009")]%char.
Proof.
  destruct e as [[] [] [] [] [] [] [] []]; vm_compute; intros H; try discriminate H; injection H as <-; eexists; (split; [reflexivity|]);
    repeat ((left; reflexivity) || right).
Qed.

Lemma string_says_all n : forall s v r, (String.length s <= n)%nat -> string_body s = Some (v, r) ->
  exists raw, s = raw ++ String quote_char r /\ string_text v raw.
Proof.
  induction n as [|n IH]; intros s v r Hn H; (destruct s as [|a s]; [discriminate|]); cbn [String.length] in Hn; [lia|].
  destruct (Ascii.eqb_spec a quote_char) as [->|Nq].
  { cbn in H. injection H as <- <-. exists "". split; [reflexivity|constructor]. }
  destruct (Ascii.eqb_spec a backslash) as [->|Nb].
  { cbn [string_body] in H. change (Ascii.eqb backslash quote_char) with false in H. change (Ascii.eqb backslash backslash) with true in H. cbv iota in H.
    destruct s as [|e s]; [discriminate|]. cbn [String.length] in Hn. destruct (Ascii.eqb_spec e "u") as [->|Nu].
    - destruct s as [|h1 [|h2 [|h3 [|h4 s]]]]; try discriminate. cbn [String.length] in Hn.
      destruct (hex4 h1 h2 h3 h4) as [u|] eqn:E; [|discriminate]. apply hex4_text in E. pose proof (hex_bound _ _ E) as Bu.
      destruct (between 55296 57343 u) eqn:B.
      + apply between_spec in B.
        assert (Half : then_ replacement (string_body s) = Some (v, r) -> (u < 56320 -> low_half s = None) ->
          exists raw, String backslash (String "u" (String h1 (String h2 (String h3 (String h4 s))))) = raw ++ String quote_char r /\ string_text v raw).
        { intros H1 H2. apply then_inv in H1 as (y & H1 & ->). destruct (IH s y r ltac:(lia) H1) as (raw & -> & Hraw).
          exists (u_escape ++ String h1 (String h2 (String h3 (String h4 ""))) ++ raw). split; [reflexivity|].
          apply said_half with (u := u); [exact E|lia| |exact Hraw].
          intros L h low r' Hh Hl ->. assert (X : low_half ((u_escape ++ h ++ r') ++ String quote_char r) = Some low).
          { apply low_half_text. exists h, (r' ++ String quote_char r). split; [now rewrite !app_assoc_s|]. split; [exact Hh|lia]. }
          rewrite H2 in X by exact L. discriminate. }
        destruct (low_half s) as [low|] eqn:El; [|apply Half; [exact H|reflexivity]].
        destruct (N.ltb_spec u 56320) as [L|L]; [|apply Half; [exact H|lia]]. clear Half.
        apply low_half_text in El as (h & r' & -> & Hh & Bl). destruct (hex_shape h low Hh) as (a' & b' & c' & d' & -> & E').
        cbn [u_escape append] in H, Hn. cbn [String.length] in Hn. apply then_inv in H as (y & H & ->). destruct (IH r' y r ltac:(lia) H) as (raw & -> & Hraw).
        exists (u_escape ++ String h1 (String h2 (String h3 (String h4 ""))) ++ u_escape ++ String a' (String b' (String c' (String d' ""))) ++ raw).
        split; [reflexivity|]. apply said_pair; [exact E|exact Hh|lia|lia|exact Hraw].
      + apply then_inv in H as (y & H & ->). destruct (IH s y r ltac:(lia) H) as (raw & -> & Hraw).
        exists (u_escape ++ String h1 (String h2 (String h3 (String h4 ""))) ++ raw). split; [reflexivity|].
        apply said_code; [exact E| |exact Hraw]. unfold scalar. apply not_true_iff_false in B. rewrite between_spec in B. lia.
    - destruct (simple_escape e) as [t|] eqn:E; [|discriminate]. apply escape_listed in E as (b & -> & Hin).
      apply then_inv in H as (y & H & ->). destruct (IH s y r ltac:(lia) H) as (raw & -> & Hraw).
      exists (String "092" (String e raw)). split; [reflexivity|]. cbn [append]. now apply said_escaped. }
  assert (L32 : 32 <= N_of_ascii a).
  { cbn [string_body] in H. apply Ascii.eqb_neq in Nq, Nb. rewrite Nq, Nb in H. destruct (N.ltb_spec (N_of_ascii a) 32); [discriminate|assumption]. }
  destruct (rune_len (String a s)) as [|k] eqn:R.
  - cbn [string_body] in H. apply Ascii.eqb_neq in Nq, Nb. rewrite Nq, Nb in H. destruct (N.ltb_spec (N_of_ascii a) 32); [lia|].
    rewrite R in H. apply then_inv in H as (y & H & ->). destruct (IH s y r ltac:(lia) H) as (raw & -> & Hraw).
    exists (String a raw). split; [reflexivity|]. apply said_junk; [| |exact Hraw].
    + destruct (N.lt_ge_cases (N_of_ascii a) 128) as [L|L]; [|exact L]. apply (rune1 a (raw ++ String quote_char r)) in L. congruence.
    + intros u r' Hs E. pose proof (proj1 (utf8_rune u (r' ++ String quote_char r) Hs)) as X.
      rewrite <- app_assoc_s, <- E in X. cbn [append] in X. rewrite R in X.
      destruct (utf8 u) eqn:Eu; [now apply utf8_nonempty in Eu|discriminate].
  - destruct (rune_utf8 _ _ R) as (u & r' & Hs & E & Hl & Hu). rewrite E in H.
    assert (U : u < 128 -> N_of_ascii a = u).
    { intros L. rewrite utf8_low in E by exact L. injection E as -> _. apply N_ascii_embedding. lia. }
    assert (X : 32 <= u /\ u <> 34 /\ u <> 92).
    { destruct (N.lt_ge_cases u 128) as [L|L]; [|lia]. apply U in L. rewrite <- L. split; [exact L32|].
      split; intros K; [apply Nq|apply Nb]; rewrite <- (ascii_N_embedding a), K; reflexivity. }
    destruct X as (X1 & X2 & X3). rewrite body_char in H by assumption. apply then_inv in H as (y & H & ->).
    assert (Q : (String.length r' <= n)%nat).
    { assert (Z : String.length (String a s) = (String.length (utf8 u) + String.length r')%nat) by (rewrite E; apply app_length_s). cbn [String.length] in Z. lia. }
    destruct (IH r' y r Q H) as (raw & -> & Hraw). exists (utf8 u ++ raw). split; [rewrite E; now rewrite app_assoc_s|].
    now apply said_character.
Qed.
Lemma string_says s v r : string_body s = Some (v, r) -> exists raw, s = raw ++ String quote_char r /\ string_text v raw.
Proof. apply (string_says_all (String.length s)). lia. Qed.

(** * Numbers *)

Definition num_text (n : num) : string := match n with Int z => print_int z | Lit s => s end.

Lemma num_text_print n : number n -> num_text n = print_num n.
Proof. destruct n as [z|s]; [reflexivity|]. intros H. destruct s; [|reflexivity]. apply literal_back in H. discriminate. Qed.

Lemma take_digits_says s : forall d r, take_digits s = (d, r) -> s = d ++ r /\ all_digits d.
Proof.
  induction s as [|a s IH]; cbn [take_digits]; intros d r H.
  - injection H as <- <-. split; [reflexivity|exact Logic.I].
  - destruct (is_digit a) eqn:E.
    + destruct (take_digits s) as [d' r'] eqn:Es. injection H as <- <-. destruct (IH _ _ eq_refl) as [-> Hd].
      split; [reflexivity|]. cbn. split; [now apply is_digit_digit|exact Hd].
    + injection H as <- <-. split; [reflexivity|exact Logic.I].
Qed.

Lemma digits_text i : all_digits i -> exists u, i = NilEmpty.string_of_uint u.
Proof.
  induction i as [|a i IH]; [intros _; now exists Decimal.Nil|]. intros [Ha Hi]. destruct (IH Hi) as (u & ->).
  destruct a as [[] [] [] [] [] [] [] []]; try (exfalso; apply Ha; reflexivity);
    first [now exists (Decimal.D0 u)|now exists (Decimal.D1 u)|now exists (Decimal.D2 u)|now exists (Decimal.D3 u)|now exists (Decimal.D4 u)
          |now exists (Decimal.D5 u)|now exists (Decimal.D6 u)|now exists (Decimal.D7 u)|now exists (Decimal.D8 u)|now exists (Decimal.D9 u)].
Qed.

Lemma dec_digits i : (i = "0" \/ exists c r, i = String c r /\ all_digits i /\ c <> "0"%char) -> dec (fst (digits 0 i)) = i.
Proof.
  intros [->|(c & r & Ei & Hd & Hc)]; [reflexivity|]. destruct (digits_text i Hd) as (u & Eu).
  assert (V : fst (digits 0 i) = uval 0 u).
  { rewrite Eu, <- (app_nil_s (NilEmpty.string_of_uint u)), digits_uint by discriminate. reflexivity. }
  rewrite V, <- of_uint_uval. unfold dec. rewrite DecimalN.Unsigned.to_of.
  assert (N : Decimal.unorm u = u).
  { rewrite Ei in Eu. destruct u; cbn in Eu; try discriminate; try reflexivity. injection Eu as -> _. congruence. }
  now rewrite N.
Qed.

Lemma int_part_says s i r : int_part s = Some (i, r) -> s = i ++ r /\ (i = "0" \/ exists c r, i = String c r /\ all_digits i /\ c <> "0"%char).
Proof.
  destruct s as [|a s]; [discriminate|]. cbn [int_part]. destruct (Ascii.eqb_spec a "0") as [->|N0].
  - intros [= <- <-]. split; [reflexivity|now left].
  - destruct (is_digit a) eqn:Ea; [|discriminate]. intros [= H]. destruct (take_digits_says (String a s) i r H) as [E Hd]. split; [exact E|]. right.
    cbn [take_digits] in H. rewrite Ea in H. destruct (take_digits s) as [d r']. injection H as <- <-. now exists a, d.
Qed.
Lemma frac_part_says s f r : frac_part s = Some (f, r) -> s = f ++ r /\ (f = "" \/ exists d, f = "." ++ d /\ some_digits d).
Proof.
  destruct s as [|a s]; cbn [frac_part]; [intros [= <- <-]; auto|].
  destruct (Ascii.eqb_spec a ".") as [->|]; [|intros [= <- <-]; auto].
  destruct (take_digits s) as [d r'] eqn:E. destruct (take_digits_says _ _ _ E) as [-> Hd].
  destruct d as [|c d]; [discriminate|]. intros [= <- <-]. split; [reflexivity|]. right. exists (String c d). split; [reflexivity|]. split; [exact Hd|discriminate].
Qed.
Lemma exp_part_says s x r : exp_part s = Some (x, r) -> s = x ++ r /\ (x = "" \/ exists e sg d, x = String e (sg ++ d) /\ (e = "e"%char \/ e = "E"%char)
                                 /\ (sg = "" \/ sg = "+" \/ sg = "-") /\ some_digits d).
Proof.
  destruct s as [|a s]; cbn [exp_part]; [intros [= <- <-]; auto|].
  destruct (Ascii.eqb a "e" || Ascii.eqb a "E") eqn:Ea; [|intros [= <- <-]; auto].
  assert (Ha : a = "e"%char \/ a = "E"%char).
  { apply orb_true_iff in Ea as [K|K]; apply Ascii.eqb_eq in K; auto. }
  set (p := match s with "" => _ | String _ _ => _ end).
  assert (Hp : s = fst p ++ snd p /\ (fst p = "" \/ fst p = "+" \/ fst p = "-")).
  { unfold p. destruct s as [|b s]; [cbn; auto|]. destruct (Ascii.eqb_spec b "+") as [->|]; [cbn; auto|].
    destruct (Ascii.eqb_spec b "-") as [->|]; cbn; auto. }
  clearbody p. destruct p as [sg r1]. cbn [fst snd] in Hp. destruct Hp as [-> Hsg].
  destruct (take_digits r1) as [d r'] eqn:E. destruct (take_digits_says _ _ _ E) as [-> Hd].
  destruct d as [|c d]; [discriminate|]. intros [= <- <-]. split; [cbn [append]; f_equal; now rewrite !app_assoc_s|]. right.
  exists a, sg, (String c d). repeat split; try assumption; try discriminate; apply Hd.
Qed.

Lemma number_says s n r : scan_number s = Some (n, r) -> number n /\ s = num_text n ++ r.
Proof.
  unfold scan_number. destruct (split_sign s) as [neg s1] eqn:Es.
  assert (E0 : s = (if neg then "-" else "") ++ s1).
  { destruct s as [|a s]; cbn in Es; [now injection Es as <- <-|].
    destruct (Ascii.eqb_spec a "-") as [->|]; injection Es as <- <-; reflexivity. }
  destruct (int_part s1) as [[i s2]|] eqn:E1; [|discriminate]. apply int_part_says in E1 as [-> Hi].
  destruct (frac_part s2) as [[fr s3]|] eqn:E2; [|discriminate]. apply frac_part_says in E2 as [-> Hf].
  destruct (exp_part s3) as [[ex s4]|] eqn:E3; [|discriminate]. apply exp_part_says in E3 as [-> He].
  intros [= Hn <-]. rewrite E0. clear Es E0.
  assert (L : fr <> "" \/ ex <> "" -> n = Lit ((if neg then "-" else "") ++ i ++ fr ++ ex) ->
    number n /\ (if neg then "-" else "") ++ i ++ fr ++ ex ++ s4 = num_text n ++ s4).
  { intros Hx ->. split; [|cbn [num_text]; now rewrite !app_assoc_s].
    exists neg, i, fr, ex. split; [reflexivity|]. split; [exact Hi|]. split; [exact Hf|]. split; [exact He|].
    destruct Hx as [Hx|Hx]; [now left|right; now left]. }
  destruct fr as [|fa fr]; [|apply L; [left; discriminate|now rewrite <- Hn]].
  destruct ex as [|xa ex]; [|apply L; [right; discriminate|now rewrite <- Hn]].
  clear L. cbn [append]. pose proof (dec_digits i Hi) as D. destruct (N.eqb_spec (fst (digits 0 i)) 0) as [Z|Z].
  - rewrite Z in D, Hn. cbn in D. subst i. destruct neg; cbn in Hn; subst n.
    + split; [|reflexivity]. exists true, "0", "", "". repeat split; auto.
    + split; [exact Logic.I|reflexivity].
  - rewrite andb_false_r in Hn. subst n. split; [exact Logic.I|]. cbn [num_text]. rewrite <- D at 1.
    destruct (fst (digits 0 i)) as [|p] eqn:P; [congruence|]. destruct neg; reflexivity.
Qed.

(** * Blanks *)

Lemma blank_listed a : blank a = true <-> In a [" "; "009"; "010"; "013"]%char.
Proof.
  split.
  - destruct a as [[] [] [] [] [] [] [] []]; vm_compute; intros H; try discriminate H; repeat ((left; reflexivity) || right).
  - cbn. intros [<-|[<-|[<-|[<-|[]]]]]; reflexivity.
Qed.
Lemma blanks_cons a w : blanks (String a w) <-> blank a = true /\ blanks w.
Proof. unfold blanks. cbn [list_ascii_of_string]. rewrite Forall_cons_iff, blank_listed. reflexivity. Qed.
Lemma blanks_nil : blanks "".
Proof. constructor. Qed.
Lemma skip_blanks w x : blanks w -> skip (w ++ x) = skip x.
Proof. induction w as [|a w IH]; [reflexivity|]. rewrite blanks_cons. intros [Ha Hw]. cbn. rewrite Ha. auto. Qed.
Lemma skip_says s c r : skip s = String c r -> exists w, blanks w /\ s = w ++ String c r /\ blank c = false.
Proof.
  induction s as [|a s IH]; [discriminate|]. cbn. destruct (blank a) eqn:E.
  - intros H. destruct (IH H) as (w & Hw & -> & Hc). exists (String a w). split; [now apply blanks_cons|]. auto.
  - intros [= -> ->]. exists "". split; [apply blanks_nil|]. auto.
Qed.
Lemma skip_nothing s : skip s = "" <-> blanks s.
Proof.
  induction s as [|a s IH]; [split; [intros _; apply blanks_nil|reflexivity]|]. rewrite blanks_cons. cbn.
  destruct (blank a); [rewrite IH; tauto|]. split; [discriminate|intros [? _]; discriminate].
Qed.
Lemma blank_ends a x : blank a = true -> ends_number (String a x).
Proof. intros H. apply blank_listed in H. cbn in H. destruct H as [<-|[<-|[<-|[<-|[]]]]]; cbn; repeat split; discriminate. Qed.
Lemma blanks_end w x : blanks w -> ends_number x -> ends_number (w ++ x).
Proof. destruct w as [|a w]; [auto|]. rewrite blanks_cons. intros [H _] _. now apply blank_ends. Qed.

(** * Values *)

Lemma text_head d j t : text_of d j t -> exists c r, t = String c r /\ blank c = false /\ c <> "]"%char /\ c <> "}"%char.
Proof.
  intros H. destruct H; try (cbn; do 2 eexists; repeat split; discriminate).
  destruct (num_head n H) as (c & r & E & Hc). rewrite <- (num_text_print n H) in E. exists c, r. split; [exact E|]. destruct Hc as [->|Hc].
  - repeat split; discriminate.
  - apply digit_head in Hc. tauto.
Qed.

Lemma items_head d l body : items_text d l body -> exists w c r, body = w ++ String c r /\ blanks w /\ blank c = false /\ c <> "]"%char.
Proof.
  intros H. destruct H as [d x t w1 w2 H1 H2 Ht|d x t w1 w2 l body H1 H2 Ht H]; destruct (text_head _ _ _ Ht) as (c & r & -> & Hb & Hc & _);
    exists w1, c; eexists; cbn [append]; (split; [reflexivity|auto]).
Qed.
Lemma members_head d l body : members_text d l body -> exists w r, body = w ++ String "034" r /\ blanks w.
Proof. intros H. destruct H; unfold quoted_text; cbn [append]; eauto. Qed.

Lemma comma_ends x : ends_number (String "," x).
Proof. cbn. repeat split; discriminate. Qed.
Lemma bracket_ends x : ends_number (String "]" x).
Proof. cbn. repeat split; discriminate. Qed.
Lemma brace_ends x : ends_number (String "}" x).
Proof. cbn. repeat split; discriminate. Qed.

Lemma text_read :
  (forall d j t, text_of d j t -> forall w f rest, blanks w -> (is_num j = true -> ends_number rest) -> (2 * String.length t <= f)%nat ->
     value f d (w ++ t ++ rest) = Some (j, rest))
  /\ (forall d l body, items_text d l body -> forall f rest, (2 * String.length body + 1 <= f)%nat ->
     elements f d (body ++ String "]" rest) = Some (l, rest))
  /\ (forall d l body, members_text d l body -> forall f rest, (2 * String.length body + 1 <= f)%nat ->
     members f d (body ++ String "}" rest) = Some (l, rest)).
Proof.
  apply text_mutual.
  - intros d w f rest Hw _ Hf. destruct f as [|f]; [cbn in Hf; lia|]. cbn [value]. now rewrite skip_blanks.
  - intros d w f rest Hw _ Hf. destruct f as [|f]; [cbn in Hf; lia|]. cbn [value]. now rewrite skip_blanks.
  - intros d w f rest Hw _ Hf. destruct f as [|f]; [cbn in Hf; lia|]. cbn [value]. now rewrite skip_blanks.
  - intros d n Hn w f rest Hw Hr Hf. change (match n with Int z => print_int z | Lit s => s end) with (num_text n) in *. rewrite num_text_print in * by exact Hn.
    pose proof (number_back n rest Hn (Hr eq_refl)) as B. destruct (num_head n Hn) as (c & r & E & Hc). rewrite E in *.
    destruct f as [|f]; [cbn in Hf; lia|]. cbn [value append] in *. rewrite skip_blanks by exact Hw.
    rewrite skip_head by (destruct Hc as [->|Hc]; [reflexivity|apply digit_head in Hc; tauto]). rewrite B.
    destruct Hc as [->|Hc]; [reflexivity|]. apply digit_head in Hc as (_ & _ & _ & -> & -> & -> & -> & -> & ->). reflexivity.
  - intros d v raw Hraw w f rest Hw _ Hf. destruct f as [|f]; [cbn in Hf; lia|]. cbn [value]. rewrite skip_blanks by exact Hw.
    unfold quoted_text. cbn [append]. rewrite skip_head by reflexivity. change (Ascii.eqb "034" quote_char) with true. cbv iota.
    rewrite app_assoc_s. cbn [append]. change "034"%char with quote_char. now rewrite (string_reads v raw Hraw rest).
  - intros d w' Hw' Hd w f rest Hw _ Hf. destruct f as [|f]; [cbn in Hf; lia|]. cbn [value]. rewrite skip_blanks by exact Hw.
    cbn [append]. rewrite skip_head by reflexivity. cbv iota. change (Ascii.eqb "[" quote_char) with false. change (Ascii.eqb "[" "[") with true. cbv iota.
    replace (d =? 0) with false by (symmetry; apply N.eqb_neq; lia). rewrite app_assoc_s, skip_blanks by exact Hw'. reflexivity.
  - intros d l body Hd Hb IH w f rest Hw _ Hf. destruct f as [|f]; [cbn in Hf; lia|]. cbn [value]. rewrite skip_blanks by exact Hw.
    cbn [append] in *. rewrite skip_head by reflexivity. change (Ascii.eqb "[" quote_char) with false. change (Ascii.eqb "[" "[") with true. cbv iota.
    replace (d =? 0) with false by (symmetry; apply N.eqb_neq; lia). rewrite app_assoc_s. cbn [append].
    cbn [String.length] in Hf. rewrite app_length_s in Hf. cbn [String.length] in Hf.
    rewrite (IH f rest) by lia.
    destruct (items_head _ _ _ Hb) as (w1 & c & r & -> & Hw1 & Hc & Nc). rewrite app_assoc_s, skip_blanks by exact Hw1. cbn [append].
    rewrite skip_head by exact Hc. apply Ascii.eqb_neq in Nc. now rewrite Nc.
  - intros d w' Hw' Hd w f rest Hw _ Hf. destruct f as [|f]; [cbn in Hf; lia|]. cbn [value]. rewrite skip_blanks by exact Hw.
    cbn [append]. rewrite skip_head by reflexivity. change (Ascii.eqb "{" quote_char) with false. change (Ascii.eqb "{" "[") with false. change (Ascii.eqb "{" "{") with true. cbv iota.
    replace (d =? 0) with false by (symmetry; apply N.eqb_neq; lia). rewrite app_assoc_s, skip_blanks by exact Hw'. reflexivity.
  - intros d l body Hd Hb IH w f rest Hw _ Hf. destruct f as [|f]; [cbn in Hf; lia|]. cbn [value]. rewrite skip_blanks by exact Hw.
    cbn [append] in *. rewrite skip_head by reflexivity. change (Ascii.eqb "{" quote_char) with false. change (Ascii.eqb "{" "[") with false. change (Ascii.eqb "{" "{") with true. cbv iota.
    replace (d =? 0) with false by (symmetry; apply N.eqb_neq; lia). rewrite app_assoc_s. cbn [append].
    cbn [String.length] in Hf. rewrite app_length_s in Hf. cbn [String.length] in Hf.
    rewrite (IH f rest) by lia.
    destruct (members_head _ _ _ Hb) as (w1 & r & -> & Hw1). rewrite app_assoc_s, skip_blanks by exact Hw1. reflexivity.
  - intros d x t w1 w2 H1 H2 Ht IH f rest Hf. rewrite !app_length_s in Hf. destruct f as [|f]; [lia|]. cbn [elements].
    rewrite !app_assoc_s, IH; [|exact H1|intros _; apply blanks_end; [exact H2|apply bracket_ends]|lia].
    rewrite skip_blanks by exact H2. reflexivity.
  - intros d x t w1 w2 l body H1 H2 Ht IH Hb IHb f rest Hf. rewrite !app_length_s in Hf. cbn [String.length append] in Hf. destruct f as [|f]; [lia|]. cbn [elements].
    rewrite !app_assoc_s. cbn [append]. rewrite IH; [|exact H1|intros _; apply blanks_end; [exact H2|apply comma_ends]|lia].
    rewrite skip_blanks by exact H2. rewrite skip_head by reflexivity. change (Ascii.eqb "," ",") with true. cbv iota.
    rewrite IHb; [reflexivity|lia].
  - intros d k raw x t w1 w2 w3 w4 H1 H2 H3 H4 Hk Ht IH f rest Hf. rewrite !app_length_s in Hf. destruct f as [|f]; [lia|]. cbn [members].
    rewrite !app_assoc_s, skip_blanks by exact H1. unfold quoted_text. cbn [append]. rewrite skip_head by reflexivity.
    change (Ascii.eqb "034" quote_char) with true. cbv iota. rewrite app_assoc_s. cbn [append]. change "034"%char with quote_char.
    rewrite (string_reads k raw Hk). rewrite skip_blanks by exact H2. rewrite skip_head by reflexivity. change (Ascii.eqb ":" ":") with true. cbv iota.
    rewrite IH; [|exact H3|intros _; apply blanks_end; [exact H4|apply brace_ends]|unfold quoted_text in Hf; cbn [append String.length] in Hf; lia].
    rewrite skip_blanks by exact H4. reflexivity.
  - intros d k raw x t w1 w2 w3 w4 l body H1 H2 H3 H4 Hk Ht IH Hb IHb f rest Hf. rewrite !app_length_s in Hf. cbn [append String.length] in Hf. destruct f as [|f]; [lia|]. cbn [members].
    rewrite !app_assoc_s, skip_blanks by exact H1. unfold quoted_text. cbn [append]. rewrite skip_head by reflexivity.
    change (Ascii.eqb "034" quote_char) with true. cbv iota. rewrite app_assoc_s. cbn [append]. change "034"%char with quote_char.
    rewrite (string_reads k raw Hk). rewrite skip_blanks by exact H2. rewrite skip_head by reflexivity. change (Ascii.eqb ":" ":") with true. cbv iota.
    rewrite IH; [|exact H3|intros _; apply blanks_end; [exact H4|apply comma_ends]|unfold quoted_text in Hf; cbn [append String.length] in Hf; lia].
    rewrite skip_blanks by exact H4. rewrite skip_head by reflexivity. change (Ascii.eqb "," ",") with true. cbv iota.
    rewrite IHb; [reflexivity|unfold quoted_text in Hf; cbn [append String.length] in Hf; lia].
Qed.

Lemma expect_says w : forall s r, expect w s = Some r -> s = w ++ r.
Proof.
  induction w as [|a w IH]; intros s r; cbn [expect]; [now intros [= ->]|]. destruct s as [|b s]; [discriminate|].
  destruct (Ascii.eqb_spec a b) as [->|]; [|discriminate]. intros H. cbn. f_equal. auto.
Qed.

Lemma value_says f :
  (forall d s j rest, value f d s = Some (j, rest) -> exists w t, s = w ++ t ++ rest /\ blanks w /\ text_of d j t)
  /\ (forall d s l rest, elements f d s = Some (l, rest) -> exists body, s = body ++ String "]" rest /\ items_text d l body)
  /\ (forall d s l rest, members f d s = Some (l, rest) -> exists body, s = body ++ String "}" rest /\ members_text d l body).
Proof.
  induction f as [|f (IHv & IHe & IHm)]; [split; [|split]; intros; discriminate|].
  split; [|split]; intros d s x rest H; cbn [value elements members] in H.
  - destruct (skip s) as [|c s1] eqn:Es; [discriminate|]. apply skip_says in Es as (w & Hw & -> & _). exists w.
    destruct (Ascii.eqb_spec c quote_char) as [->|_].
    { destruct (string_body s1) as [[v r]|] eqn:E; [|discriminate]. injection H as <- <-. apply string_says in E as (raw & -> & Hraw).
      exists (quoted_text raw). split; [unfold quoted_text; cbn [append]; now rewrite app_assoc_s|]. split; [exact Hw|now constructor]. }
    destruct (Ascii.eqb_spec c "[") as [->|_].
    { destruct (N.eqb_spec d 0); [discriminate|]. destruct (skip s1) as [|c2 r2] eqn:E2; [discriminate|].
      destruct (Ascii.eqb_spec c2 "]") as [->|_].
      - injection H as <- <-. apply skip_says in E2 as (w2 & Hw2 & -> & _). exists ("[" ++ w2 ++ "]").
        split; [cbn [append]; now rewrite app_assoc_s|]. split; [exact Hw|]. constructor; [exact Hw2|lia].
      - destruct (elements f (d - 1) s1) as [[l r]|] eqn:E; [|discriminate]. injection H as <- <-. apply IHe in E as (body & -> & Hb).
        exists ("[" ++ body ++ "]"). split; [cbn [append]; now rewrite app_assoc_s|]. split; [exact Hw|]. constructor; [lia|exact Hb]. }
    destruct (Ascii.eqb_spec c "{") as [->|_].
    { destruct (N.eqb_spec d 0); [discriminate|]. destruct (skip s1) as [|c2 r2] eqn:E2; [discriminate|].
      destruct (Ascii.eqb_spec c2 "}") as [->|_].
      - injection H as <- <-. apply skip_says in E2 as (w2 & Hw2 & -> & _). exists ("{" ++ w2 ++ "}").
        split; [cbn [append]; now rewrite app_assoc_s|]. split; [exact Hw|]. constructor; [exact Hw2|lia].
      - destruct (members f (d - 1) s1) as [[l r]|] eqn:E; [|discriminate]. injection H as <- <-. apply IHm in E as (body & -> & Hb).
        exists ("{" ++ body ++ "}"). split; [cbn [append]; now rewrite app_assoc_s|]. split; [exact Hw|]. constructor; [lia|exact Hb]. }
    destruct (Ascii.eqb_spec c "n") as [->|_].
    { destruct (expect "ull" s1) as [r|] eqn:E; [|discriminate]. injection H as <- <-. apply expect_says in E as ->.
      exists "null". split; [reflexivity|]. split; [exact Hw|constructor]. }
    destruct (Ascii.eqb_spec c "t") as [->|_].
    { destruct (expect "rue" s1) as [r|] eqn:E; [|discriminate]. injection H as <- <-. apply expect_says in E as ->.
      exists "true". split; [reflexivity|]. split; [exact Hw|constructor]. }
    destruct (Ascii.eqb_spec c "f") as [->|_].
    { destruct (expect "alse" s1) as [r|] eqn:E; [|discriminate]. injection H as <- <-. apply expect_says in E as ->.
      exists "false". split; [reflexivity|]. split; [exact Hw|constructor]. }
    destruct (scan_number (String c s1)) as [[n r]|] eqn:E; [|discriminate]. injection H as <- <-. apply number_says in E as [Hn ->].
    exists (num_text n). split; [reflexivity|]. split; [exact Hw|]. now apply text_number.
  - destruct (value f d s) as [[v r]|] eqn:E; [|discriminate]. apply IHv in E as (w & t & -> & Hw & Ht).
    destruct (skip r) as [|c r'] eqn:Es; [discriminate|]. apply skip_says in Es as (w2 & Hw2 & -> & _).
    destruct (Ascii.eqb_spec c ",") as [->|_].
    + destruct (elements f d r') as [[l r'']|] eqn:E2; [|discriminate]. injection H as <- <-. apply IHe in E2 as (body & -> & Hb).
      exists (w ++ t ++ w2 ++ "," ++ body). split; [now rewrite !app_assoc_s|]. now constructor.
    + destruct (Ascii.eqb_spec c "]") as [->|_]; [|discriminate]. injection H as <- <-.
      exists (w ++ t ++ w2). split; [now rewrite !app_assoc_s|]. now constructor.
  - destruct (skip s) as [|q s1] eqn:Es; [discriminate|]. apply skip_says in Es as (w & Hw & -> & _).
    destruct (Ascii.eqb_spec q quote_char) as [->|_]; [|discriminate].
    destruct (string_body s1) as [[k r1]|] eqn:Ek; [|discriminate]. apply string_says in Ek as (raw & -> & Hraw).
    destruct (skip r1) as [|c r2] eqn:Es; [discriminate|]. apply skip_says in Es as (w2 & Hw2 & -> & _).
    destruct (Ascii.eqb_spec c ":") as [->|_]; [|discriminate].
    destruct (value f d r2) as [[v r3]|] eqn:E; [|discriminate]. apply IHv in E as (w3 & t & -> & Hw3 & Ht).
    destruct (skip r3) as [|c' r4] eqn:Es; [discriminate|]. apply skip_says in Es as (w4 & Hw4 & -> & _).
    destruct (Ascii.eqb_spec c' ",") as [->|_].
    + destruct (members f d r4) as [[l r'']|] eqn:E2; [|discriminate]. injection H as <- <-. apply IHm in E2 as (body & -> & Hb).
      exists (w ++ quoted_text raw ++ w2 ++ ":" ++ w3 ++ t ++ w4 ++ "," ++ body). split; [|now constructor].
      unfold quoted_text. repeat (rewrite app_assoc_s; cbn [append]). reflexivity.
    + destruct (Ascii.eqb_spec c' "}") as [->|_]; [|discriminate]. injection H as <- <-.
      exists (w ++ quoted_text raw ++ w2 ++ ":" ++ w3 ++ t ++ w4). split; [|now constructor].
      unfold quoted_text. repeat (rewrite app_assoc_s; cbn [append]). reflexivity.
Qed.

(** * Whole texts *)

Lemma read_says s j rest : read_value s = Some (j, rest) -> exists w t, s = w ++ t ++ rest /\ blanks w /\ text_of max_nesting j t.
Proof. apply value_says. Qed.
Lemma read_reads w t j rest : blanks w -> text_of max_nesting j t -> (is_num j = true -> ends_number rest) ->
  read_value (w ++ t ++ rest) = Some (j, rest).
Proof. intros Hw Ht Hr. unfold read_value. apply text_read; auto. rewrite !app_length_s. lia. Qed.
