(** Proofs about pretty-printed JSON. *)
From Coq Require Import ZArith.
From Verif Require Import Base DecText Json JsonText JsonTextSpec JsonTextProofs JsonGrammar JsonGrammarProofs JsonGrammarReads Pretty PrettySpec.
Open Scope string_scope.
Open Scope N_scope.

Lemma assoc_s a b c : (a ++ b) ++ c = a ++ b ++ c.
Proof. induction a as [|x a IH]; cbn; [reflexivity|now rewrite IH]. Qed.
Lemma nil_app_s a : a ++ "" = a.
Proof. induction a as [|x a IH]; cbn; congruence. Qed.
Lemma steps_blank n : blanks (steps n).
Proof. induction n as [|n IH]; cbn; [apply blanks_nil|]. repeat (apply blanks_cons; split; [reflexivity|]). exact IH. Qed.
Lemma newline_blank n : blanks (newline n).
Proof. apply blanks_cons. split; [reflexivity|apply steps_blank]. Qed.
Lemma blanks_app v w : blanks v -> blanks w -> blanks (v ++ w).
Proof. induction v as [|a v IH]; [auto|]. cbn. rewrite !blanks_cons. intuition. Qed.

(** What a pending indentation adds in front of the next token. *)
Definition lead (need : bool) (d : nat) : string := if need then newline (S d) else "".
Definition now_at (need : bool) (d : nat) : nat := if need then S d else d.
Lemma lead_blank b d : blanks (lead b d).
Proof. destruct b; [apply newline_blank|apply blanks_nil]. Qed.

Lemma over_blanks w r b d : blanks w -> indented (w ++ r) Outside b d = indented r Outside b d.
Proof. induction w as [|a w IH]; [reflexivity|]. rewrite blanks_cons. intros [Ha Hw]. cbn. rewrite Ha. auto. Qed.

(** Bytes of numbers and of null, true, false. *)
Definition word_char (a : ascii) : bool :=
  negb (blank a || Ascii.eqb a "034" || Ascii.eqb a "{" || Ascii.eqb a "}" || Ascii.eqb a "[" || Ascii.eqb a "]" || Ascii.eqb a "," || Ascii.eqb a ":").
Fixpoint word (s : string) : Prop := match s with EmptyString => True | String c r => word_char c = true /\ word r end.

Lemma one_word_char c r b d : word_char c = true -> indented (String c r) Outside b d = lead b d ++ String c (indented r Outside false (now_at b d)).
Proof.
  unfold word_char. intros H. destruct (blank c) eqn:B; [discriminate H|]. apply negb_true_iff in H. cbn [orb] in H. repeat (apply orb_false_elim in H as [H ?]).
  cbn [indented]. rewrite B. repeat match goal with E : Ascii.eqb c _ = false |- _ => rewrite E; clear E end. cbn [orb]. destruct b; reflexivity.
Qed.
Lemma word_on t r d : word t -> indented (t ++ r) Outside false d = t ++ indented r Outside false d.
Proof.
  induction t as [|c t IH]; [reflexivity|]. intros [Hc Ht]. cbn [append]. rewrite one_word_char by exact Hc. cbn [lead append now_at]. now rewrite IH.
Qed.
Lemma word_in t r b d : t <> "" -> word t -> indented (t ++ r) Outside b d = lead b d ++ t ++ indented r Outside false (now_at b d).
Proof.
  destruct t as [|c t]; [congruence|]. intros _ [Hc Ht]. cbn [append]. rewrite one_word_char by exact Hc. now rewrite word_on.
Qed.

Lemma word_app a b : word a -> word b -> word (a ++ b).
Proof. induction a as [|c a IH]; cbn; [auto|]. intuition. Qed.
Lemma digit_word c : digit c <> None -> word_char c = true.
Proof. destruct c as [[] [] [] [] [] [] [] []]; vm_compute; intros H; try reflexivity; now destruct H. Qed.
Lemma digits_word s : all_digits s -> word s.
Proof. induction s as [|c s IH]; cbn; [auto|]. intros [H K]. split; [now apply digit_word|auto]. Qed.
Lemma literal_word s : literal s -> word s /\ s <> "".
Proof.
  intros (neg & i & fr & ex & -> & Hi & Hf & He & _).
  assert (I : word i /\ i <> "").
  { destruct Hi as [->|(c & r & -> & H & _)]; [split; [split; [reflexivity|exact Logic.I]|discriminate]|]. split; [now apply digits_word|discriminate]. }
  assert (F : word fr). { destruct Hf as [->|(d & -> & [H _])]; [exact Logic.I|]. apply word_app; [split; [reflexivity|exact Logic.I]|now apply digits_word]. }
  assert (E : word ex).
  { destruct He as [->|(e & sg & d & -> & He & Hs & [Hd _])]; [exact Logic.I|]. cbn [word]. split; [destruct He as [->| ->]; reflexivity|].
    apply word_app; [destruct Hs as [->|[->| ->]]; [exact Logic.I| |]; (split; [reflexivity|exact Logic.I])|now apply digits_word]. }
  split.
  - apply word_app; [destruct neg; [split; [reflexivity|exact Logic.I]|exact Logic.I]|]. apply word_app; [apply I|]. now apply word_app.
  - destruct neg; [discriminate|]. destruct i; [now destruct I|discriminate].
Qed.
Lemma dec_word n : word (dec n) /\ dec n <> "".
Proof. split; [apply digits_word, dec_all|]. destruct (dec_int n) as [->|(c & r & -> & _)]; discriminate. Qed.
Lemma number_word n : number n -> word (match n with Int z => print_int z | Lit s => s end) /\ (match n with Int z => print_int z | Lit s => s end) <> "".
Proof.
  destruct n as [z|s]; cbn; [intros _|apply literal_word]. destruct z as [|p|p]; cbn [print_int]; try apply dec_word.
  split; [apply word_app; [split; [reflexivity|exact Logic.I]|apply dec_word]|discriminate].
Qed.

(** Strings are copied. *)
Definition calm (a : ascii) : Prop := Ascii.eqb a "092" = false /\ Ascii.eqb a "034" = false.
Fixpoint calm_text (s : string) : Prop := match s with EmptyString => True | String c r => calm c /\ calm_text r end.
Lemma calm_in s r b d : calm_text s -> indented (s ++ r) Inside b d = s ++ indented r Inside b d.
Proof. induction s as [|c s IH]; [reflexivity|]. intros [[H1 H2] H]. cbn. rewrite H1, H2. now rewrite IH. Qed.
Lemma high_calm s : high s -> calm_text s.
Proof.
  induction s as [|c s IH]; cbn; [auto|]. intros [H K]. split; [|auto]. split; apply Ascii.eqb_neq; intros ->; revert H; vm_compute; intros H; now destruct H.
Qed.
Lemma utf8_calm u : scalar u -> 32 <= u -> u <> 34 -> u <> 92 -> calm_text (utf8 u).
Proof.
  intros Hs H1 H2 H3. destruct (N.ltb_spec u 128) as [L|L]; [|apply high_calm; now apply utf8_high].
  rewrite utf8_low by exact L. split; [|exact Logic.I]. split; apply Ascii.eqb_neq; intros E; apply (f_equal N_of_ascii) in E; rewrite N_ascii_embedding in E by lia; [apply H3|apply H2]; exact E.
Qed.
Lemma hex_calm h u : hex_text h u -> calm_text h.
Proof.
  intros (a & b & c & d & i & j & k & l & -> & Ha & Hb & Hc & Hd & _).
  assert (D : forall x n, hex_digit x n -> calm x).
  { intros x n [H|H]; repeat (destruct n as [|n]; [cbn in H; injection H as <-; split; reflexivity|cbn in H]); destruct n; discriminate H. }
  cbn. repeat split; try apply (D _ _ Ha); try apply (D _ _ Hb); try apply (D _ _ Hc); try apply (D _ _ Hd).
Qed.
Lemma escape_in r b d : indented (u_escape ++ r) Inside b d = u_escape ++ indented r Inside b d.
Proof. reflexivity. Qed.
Lemma string_in v raw : string_text v raw -> forall r b d, indented (raw ++ r) Inside b d = raw ++ indented r Inside b d.
Proof.
  induction 1 as [|u v raw Hs H1 H2 H3 _ IH|a c v raw H _ IH|h u v raw Hh _ _ IH|h1 h2 hi lo v raw Hh1 Hh2 _ _ _ IH|h u v raw Hh _ _ _ IH|a v raw Ha _ _ IH]; intros r b d.
  - reflexivity.
  - rewrite !assoc_s, calm_in by (now apply utf8_calm). now rewrite IH.
  - cbn. now rewrite IH.
  - rewrite !assoc_s, escape_in, calm_in by (eapply hex_calm; eassumption). now rewrite IH.
  - rewrite !assoc_s, escape_in, calm_in by (eapply hex_calm; eassumption). rewrite escape_in, calm_in by (eapply hex_calm; eassumption). now rewrite IH.
  - rewrite !assoc_s, escape_in, calm_in by (eapply hex_calm; eassumption). now rewrite IH.
  - change (indented (String a "" ++ raw ++ r) Inside b d = String a (raw ++ indented r Inside b d)).
    assert (C : high (String a "")) by (split; [exact Ha|exact Logic.I]). rewrite calm_in by (now apply high_calm). cbn. now rewrite IH.
Qed.
Lemma quoted_in v raw r b d : string_text v raw -> indented (quoted_text raw ++ r) Outside b d = lead b d ++ quoted_text raw ++ indented r Outside false (now_at b d).
Proof.
  intros H. unfold quoted_text. cbn [append]. rewrite !assoc_s. cbn [append].
  transitivity (lead b d ++ String "034" (indented (raw ++ String "034" r) Inside false (now_at b d))).
  - cbn. destruct b; reflexivity.
  - rewrite (string_in v raw H). cbn. reflexivity.
Qed.

(** Items and members with white space around them. *)
Lemma items_lead d l b w : blanks w -> items_text d l b -> items_text d l (w ++ b).
Proof. intros Hw H. destruct H; rewrite <- (assoc_s w); constructor; auto; now apply blanks_app. Qed.
Lemma members_lead d l b w : blanks w -> members_text d l b -> members_text d l (w ++ b).
Proof. intros Hw H. destruct H; rewrite <- (assoc_s w); constructor; auto; now apply blanks_app. Qed.
Lemma items_trail d l b w : blanks w -> items_text d l b -> items_text d l (b ++ w).
Proof. intros Hw H. induction H as [d x t w1 w2 H1 H2 H3|d x t w1 w2 l body H1 H2 H3 _ IH]; rewrite !assoc_s; constructor; auto; now apply blanks_app. Qed.
Lemma members_trail d l b w : blanks w -> members_text d l b -> members_text d l (b ++ w).
Proof. intros Hw H. induction H; rewrite !assoc_s; constructor; auto; now apply blanks_app. Qed.

Lemma open_in c r b d : (c = "["%char \/ c = "{"%char) -> indented (String c r) Outside b d = lead b d ++ String c (indented r Outside true (now_at b d)).
Proof. intros [->| ->]; destruct b; reflexivity. Qed.
Lemma close_in c r d : (c = "]"%char \/ c = "}"%char) ->
  indented (String c r) Outside true d = String c (indented r Outside false d)
  /\ indented (String c r) Outside false (S d) = newline d ++ String c (indented r Outside false d).
Proof. intros [->| ->]; split; reflexivity. Qed.
Lemma comma_in r d : indented ("," ++ r) Outside false d = "," ++ newline d ++ indented r Outside false d.
Proof. reflexivity. Qed.
Lemma colon_in r d : indented (":" ++ r) Outside false d = ":" ++ " " ++ indented r Outside false d.
Proof. reflexivity. Qed.

Lemma line_newline d : newline d = line d.
Proof.
  unfold newline, line. f_equal. induction d as [|d IH]; [reflexivity|]. cbn [steps append]. rewrite IH. replace (2 * S d)%nat with (S (S (2 * d)))%nat by lia. reflexivity.
Qed.

Lemma indented_says :
  (forall m j t, text_of m j t -> forall b d, exists t', text_of m j t' /\ laid (now_at b d) j t'
     /\ (forall r, indented (t ++ r) Outside b d = lead b d ++ t' ++ indented r Outside false (now_at b d)))
  /\ (forall m l u, items_text m l u -> forall b d, exists u', items_text m l u' /\ laid_list (now_at b d) l u'
     /\ (forall r, indented (u ++ r) Outside b d = lead b d ++ u' ++ indented r Outside false (now_at b d)))
  /\ (forall m l u, members_text m l u -> forall b d, exists u', members_text m l u' /\ laid_pairs (now_at b d) l u'
     /\ (forall r, indented (u ++ r) Outside b d = lead b d ++ u' ++ indented r Outside false (now_at b d))).
Proof.
  assert (W : forall m j t, text_of m j t -> t <> "" -> word t -> (forall d, laid d j t) -> forall b d, exists t', text_of m j t' /\ laid (now_at b d) j t'
    /\ (forall r, indented (t ++ r) Outside b d = lead b d ++ t' ++ indented r Outside false (now_at b d))).
  { intros m j t H N K L b d. exists t. split; [exact H|]. split; [apply L|]. intros r. now apply word_in. }
  apply text_mutual.
  - intros m. apply W; [constructor|discriminate|repeat split|constructor].
  - intros m. apply W; [constructor|discriminate|repeat split|constructor].
  - intros m. apply W; [constructor|discriminate|repeat split|constructor].
  - intros m n H. destruct (number_word n H). apply W; [now constructor|assumption|assumption|now constructor].
  - intros m v raw H b d. exists (quoted_text raw). split; [now constructor|]. split; [now constructor|]. intros r. now apply (quoted_in v).
  - intros m w Hw Hm b d. exists "[]". split; [apply (text_no_items m ""); [apply blanks_nil|exact Hm]|]. split; [constructor|].
    intros r. rewrite ?assoc_s. change ("[" ++ w ++ "]" ++ r) with (String "[" (w ++ "]" ++ r)). rewrite open_in by auto. rewrite over_blanks by exact Hw.
    change ("]" ++ r) with (String "]" r). rewrite (proj1 (close_in "]" r (now_at b d) (or_introl eq_refl))). reflexivity.
  - intros m l body Hm _ IH b d. destruct (IH true (now_at b d)) as (u & Hu & Lu & E). exists ("[" ++ (newline (S (now_at b d)) ++ u ++ newline (now_at b d)) ++ "]").
    split; [apply text_items; [exact Hm|]; apply items_lead; [apply newline_blank|]; apply items_trail; [apply newline_blank|exact Hu]|].
    split; [rewrite !line_newline, ?assoc_s; now constructor|].
    intros r. rewrite ?assoc_s. change ("[" ++ body ++ "]" ++ r) with (String "[" (body ++ "]" ++ r)). rewrite open_in by auto. rewrite E. cbn [now_at lead].
    change (indented ("]" ++ r) Outside false (S (now_at b d))) with (newline (now_at b d) ++ String "]" (indented r Outside false (now_at b d))). reflexivity.
  - intros m w Hw Hm b d. exists "{}". split; [apply (text_no_members m ""); [apply blanks_nil|exact Hm]|]. split; [constructor|].
    intros r. rewrite ?assoc_s. change ("{" ++ w ++ "}" ++ r) with (String "{" (w ++ "}" ++ r)). rewrite open_in by auto. rewrite over_blanks by exact Hw.
    change ("}" ++ r) with (String "}" r). rewrite (proj1 (close_in "}" r (now_at b d) (or_intror eq_refl))). reflexivity.
  - intros m l body Hm _ IH b d. destruct (IH true (now_at b d)) as (u & Hu & Lu & E). exists ("{" ++ (newline (S (now_at b d)) ++ u ++ newline (now_at b d)) ++ "}").
    split; [apply text_members; [exact Hm|]; apply members_lead; [apply newline_blank|]; apply members_trail; [apply newline_blank|exact Hu]|].
    split; [rewrite !line_newline, ?assoc_s; now constructor|].
    intros r. rewrite ?assoc_s. change ("{" ++ body ++ "}" ++ r) with (String "{" (body ++ "}" ++ r)). rewrite open_in by auto. rewrite E. cbn [now_at lead].
    change (indented ("}" ++ r) Outside false (S (now_at b d))) with (newline (now_at b d) ++ String "}" (indented r Outside false (now_at b d))). reflexivity.
  - intros m x t w1 w2 H1 H2 _ IH b d. destruct (IH b d) as (t' & Ht & Lt & E). exists t'.
    split; [rewrite <- (nil_app_s t'); apply (one_item m x t' "" ""); [apply blanks_nil|apply blanks_nil|exact Ht]|]. split; [now constructor|].
    intros r. rewrite ?assoc_s, over_blanks, E, over_blanks by assumption. reflexivity.
  - intros m x t w1 w2 l body H1 H2 _ IH _ IHl b d. destruct (IH b d) as (t' & Ht & Lt & E). destruct (IHl false (now_at b d)) as (u & Hu & Lu & E2).
    exists (t' ++ "," ++ newline (now_at b d) ++ u).
    split; [apply (more_items m x t' "" ""); [apply blanks_nil|apply blanks_nil|exact Ht|]; apply items_lead; [apply newline_blank|exact Hu]|].
    split; [rewrite line_newline; now constructor|].
    intros r. rewrite ?assoc_s, over_blanks, E, over_blanks, comma_in, E2 by assumption. cbn [now_at lead]. rewrite ?assoc_s. reflexivity.
  - intros m k raw x t w1 w2 w3 w4 H1 H2 H3 H4 Hk _ IH b d. destruct (IH false (now_at b d)) as (t' & Ht & Lt & E).
    exists (quoted_text raw ++ ": " ++ t').
    split; [rewrite <- (nil_app_s t'); apply (one_member m k raw x t' "" "" " " ""); [apply blanks_nil|apply blanks_nil|apply blanks_cons; split; [reflexivity|apply blanks_nil]|apply blanks_nil|exact Hk|exact Ht]|].
    split; [now constructor|].
    intros r. rewrite ?assoc_s, over_blanks, (quoted_in k), over_blanks, colon_in, over_blanks, E, over_blanks by assumption. cbn [now_at lead]. rewrite ?assoc_s. reflexivity.
  - intros m k raw x t w1 w2 w3 w4 l body H1 H2 H3 H4 Hk _ IH _ IHl b d. destruct (IH false (now_at b d)) as (t' & Ht & Lt & E). destruct (IHl false (now_at b d)) as (u & Hu & Lu & E2).
    exists (quoted_text raw ++ ": " ++ t' ++ "," ++ newline (now_at b d) ++ u).
    split; [apply (more_members m k raw x t' "" "" " " ""); [apply blanks_nil|apply blanks_nil|apply blanks_cons; split; [reflexivity|apply blanks_nil]|apply blanks_nil|exact Hk|exact Ht|]; apply members_lead; [apply newline_blank|exact Hu]|].
    split; [rewrite line_newline; now constructor|].
    intros r. rewrite ?assoc_s, over_blanks, (quoted_in k), over_blanks, colon_in, over_blanks, E, over_blanks by assumption. cbn [lead now_at]. rewrite comma_in, E2. cbn [lead now_at]. rewrite ?assoc_s. reflexivity.
Qed.

(** * White space does not matter *)

(** A text without the white space outside of strings. *)
Fixpoint compact (s : string) (at_ : spot) : string :=
  match s with
  | EmptyString => ""
  | String c r =>
      match at_ with
      | Escape => String c (compact r Inside)
      | Inside => String c (compact r (if Ascii.eqb c "092" then Escape else if Ascii.eqb c "034" then Outside else Inside))
      | Outside => if blank c then compact r Outside else String c (compact r (if Ascii.eqb c "034" then Inside else Outside))
      end
  end.

Lemma compact_blanks w r : blanks w -> compact (w ++ r) Outside = compact r Outside.
Proof. induction w as [|a w IH]; [reflexivity|]. rewrite blanks_cons. intros [Ha Hw]. cbn. rewrite Ha. auto. Qed.

Lemma punct_not_quote c : Ascii.eqb c "}" || Ascii.eqb c "]" = true \/ Ascii.eqb c "{" || Ascii.eqb c "[" = true \/ Ascii.eqb c "," = true \/ Ascii.eqb c ":" = true -> Ascii.eqb c "034" = false.
Proof.
  rewrite !orb_true_iff, !Ascii.eqb_eq. intros [[->| ->]|[[->| ->]|[->| ->]]]; reflexivity.
Qed.

(** Indenting does not look at it ... *)
Lemma indented_compact s : forall p b d, indented (compact s p) p b d = indented s p b d.
Proof.
  induction s as [|c s IH]; intros p b d; [reflexivity|]. destruct p; cbn [compact].
  - cbn [indented]. destruct (blank c) eqn:B; [apply IH|]. cbn [indented]. rewrite B.
    destruct (Ascii.eqb c "}" || Ascii.eqb c "]") eqn:E1; [rewrite (punct_not_quote c) by auto; now rewrite !IH|].
    destruct (Ascii.eqb c "{" || Ascii.eqb c "[") eqn:E2; [rewrite (punct_not_quote c) by auto; now rewrite !IH|].
    destruct (Ascii.eqb c ",") eqn:E3; [rewrite (punct_not_quote c) by auto; now rewrite !IH|].
    destruct (Ascii.eqb c ":") eqn:E4; [rewrite (punct_not_quote c) by auto; now rewrite !IH|].
    destruct (Ascii.eqb c "034"); now rewrite IH.
  - cbn [indented]. now rewrite IH.
  - cbn [indented]. now rewrite IH.
Qed.
(** ... and adds nothing else. *)
Lemma compact_indented s : forall p b d, compact (indented s p b d) p = compact s p.
Proof.
  assert (N : forall d r, compact (newline d ++ r) Outside = compact r Outside) by (intros; apply compact_blanks, newline_blank).
  assert (L : forall (b : bool) d r, compact ((if b then newline d else "") ++ r) Outside = compact r Outside) by (intros [] d r; [apply N|reflexivity]).
  induction s as [|c s IH]; intros p b d; [reflexivity|]. destruct p.
  - cbn [indented compact]. destruct (blank c) eqn:B; [apply IH|].
    destruct (Ascii.eqb c "}" || Ascii.eqb c "]") eqn:E1.
    { rewrite (punct_not_quote c) by auto. destruct b; rewrite ?N; cbn [compact]; rewrite B, (punct_not_quote c), IH by auto; reflexivity. }
    cbv zeta. rewrite L.
    destruct (Ascii.eqb c "{" || Ascii.eqb c "[") eqn:E2; [cbn [compact]; rewrite B, (punct_not_quote c), IH by auto; reflexivity|].
    destruct (Ascii.eqb c ",") eqn:E3; [cbn [compact]; rewrite B, (punct_not_quote c), N, IH by auto; reflexivity|].
    destruct (Ascii.eqb c ":") eqn:E4; [cbn [compact]; rewrite B, (punct_not_quote c) by auto; cbn [append compact blank]; change (blank " ") with true; cbv iota; rewrite IH; reflexivity|].
    cbn [compact]. rewrite B. now rewrite IH.
  - cbn [indented compact]. now rewrite IH.
  - cbn [indented compact]. now rewrite IH.
Qed.

Lemma bare_compact s : forall p, bare s (match p with Outside => false | _ => true end) (match p with Escape => true | _ => false end) = compact s p.
Proof.
  assert (B : forall c, existsb (Ascii.eqb c) [" "; "009"; "010"; "013"]%char = blank c) by (intros [[] [] [] [] [] [] [] []]; reflexivity).
  induction s as [|c s IH]; intros p; [reflexivity|]. destruct p; cbn [bare compact].
  - rewrite B. destruct (blank c); [apply (IH Outside)|]. f_equal. rewrite <- IH. destruct (Ascii.eqb c "034"); reflexivity.
  - f_equal. rewrite <- IH. destruct (Ascii.eqb_spec c "092") as [->|_]; [reflexivity|]. destruct (Ascii.eqb c "034"); reflexivity.
  - f_equal. cbn. apply (IH Inside).
Qed.

(** * The whole *)

Lemma dark_end t : (exists c r, t = String c r) -> word t -> exists a c, t = a ++ String c "" /\ blank c = false.
Proof.
  induction t as [|c t IH]; intros (x & r & E) W; [discriminate|]. destruct W as [Wc Wt]. destruct t as [|c' t].
  - exists "", c. split; [reflexivity|]. unfold word_char in Wc. destruct (blank c); [discriminate Wc|reflexivity].
  - destruct IH as (a & z & E2 & Hz); [eauto|exact Wt|]. exists (String c a), z. rewrite E2. auto.
Qed.
Lemma text_end m j t : text_of m j t -> exists a c, t = a ++ String c "" /\ blank c = false.
Proof.
  intros H. assert (W : t <> "" -> word t -> exists a c, t = a ++ String c "" /\ blank c = false).
  { intros N K. apply dark_end; [destruct t; [congruence|eauto]|exact K]. }
  destruct H as [m|m|m|m n H|m v raw H|m w H1 H2|m l body H1 H2|m w H1 H2|m l body H1 H2];
    try (apply W; [discriminate|repeat split; fail]).
  - destruct (number_word n H). auto.
  - exists (String "034" raw), "034"%char. split; reflexivity.
  - exists ("[" ++ w), "]"%char. split; [now rewrite assoc_s|reflexivity].
  - exists ("[" ++ body), "]"%char. split; [now rewrite assoc_s|reflexivity].
  - exists ("{" ++ w), "}"%char. split; [now rewrite assoc_s|reflexivity].
  - exists ("{" ++ body), "}"%char. split; [now rewrite assoc_s|reflexivity].
Qed.
Lemma trim_blanks w : blanks w -> trim_end w = "".
Proof. induction w as [|a w IH]; [reflexivity|]. rewrite blanks_cons. intros [Ha Hw]. cbn. rewrite (IH Hw), Ha. reflexivity. Qed.
Lemma trim_end_text a c w : blank c = false -> blanks w -> trim_end (a ++ String c w) = a ++ String c "".
Proof.
  intros Hc Hw. induction a as [|x a IH]; cbn [append trim_end].
  - rewrite trim_blanks by exact Hw. now rewrite Hc.
  - rewrite IH. destruct (a ++ String c "") as [|y z] eqn:E; [destruct a; discriminate E|reflexivity].
Qed.
Lemma substring_front a b : substring 0 (String.length a) (a ++ b) = a.
Proof. induction a as [|c a IH]; cbn; [destruct b; reflexivity|now rewrite IH]. Qed.
Lemma length_app_s a b : String.length (a ++ b) = (String.length a + String.length b)%nat.
Proof. induction a as [|c a IH]; cbn; congruence. Qed.

Lemma pretty_says s j : says s j -> pretty s = indented s Outside false 0 /\ text_of 10000 j (pretty s) /\ laid 0 j (pretty s).
Proof.
  intros (w & t & w' & -> & Hw & Ht & Hw').
  destruct (proj1 indented_says _ _ _ Ht false 0%nat) as (t1 & Ht1 & L1 & E). cbn [lead now_at append] in *.
  assert (P : pretty (w ++ t ++ w') = t1).
  { unfold pretty. rewrite (read_reads w t j w' Hw Ht) by (intros _; rewrite <- (nil_app_s w'); now apply blanks_end).
    rewrite (proj2 (skip_nothing w') Hw'). replace (String.length (w ++ t ++ w') - String.length w')%nat with (String.length (w ++ t)) by (rewrite !length_app_s; lia).
    rewrite <- (assoc_s w), substring_front, over_blanks by exact Hw. rewrite <- (nil_app_s t), E. cbn [indented]. rewrite nil_app_s.
    destruct (text_head _ _ _ Ht1) as (c & r & Ec & Hc & _). destruct (text_end _ _ _ Ht1) as (a & z & Ez & Hz). unfold trim.
    replace (skip (t1 ++ w')) with (t1 ++ w') by (rewrite Ec; cbn [append skip]; now rewrite Hc). rewrite Ez, assoc_s. now apply trim_end_text. }
  rewrite P. split; [|auto]. rewrite over_blanks, E by exact Hw. rewrite <- (nil_app_s w'), over_blanks by exact Hw'. cbn [indented]. now rewrite nil_app_s.
Qed.

Lemma says_itself t j : text_of 10000 j t -> says t j.
Proof. intros H. exists "", t, "". split; [cbn; now rewrite nil_app_s|]. split; [apply blanks_nil|]. split; [exact H|apply blanks_nil]. Qed.

Lemma pretty_nothing s : (forall j, ~ says s j) -> pretty s = "".
Proof.
  intros H. unfold pretty. destruct (read_value s) as [[j rest]|] eqn:E; [|reflexivity]. destruct (skip rest) eqn:K; [|reflexivity]. exfalso.
  apply read_says in E as (w & t & -> & Hw & Ht). apply (H j). exists w, t, rest. split; [reflexivity|]. split; [exact Hw|]. split; [exact Ht|]. now apply skip_nothing.
Qed.
Lemma says_or_not s : (exists j, says s j) \/ (forall j, ~ says s j).
Proof.
  destruct (read_value s) as [[j rest]|] eqn:E.
  - destruct (skip rest) eqn:K.
    + left. exists j. apply read_says in E as (w & t & -> & Hw & Ht). exists w, t, rest. split; [reflexivity|]. split; [exact Hw|]. split; [exact Ht|]. now apply skip_nothing.
    + right. intros j' (w & t & w' & -> & Hw & Ht & Hw'). rewrite (read_reads w t j' w' Hw Ht) in E by (intros _; rewrite <- (nil_app_s w'); now apply blanks_end).
      injection E as -> ->. apply skip_nothing in Hw'. congruence.
  - right. intros j' (w & t & w' & -> & Hw & Ht & Hw'). rewrite (read_reads w t j' w' Hw Ht) in E by (intros _; rewrite <- (nil_app_s w'); now apply blanks_end). discriminate E.
Qed.

Lemma pretty_bare s j : says s j -> bare (pretty s) false false = bare s false false.
Proof. intros H. rewrite (proj1 (pretty_says s j H)). rewrite !(bare_compact _ Outside). apply compact_indented. Qed.
Lemma pretty_same s s' j j' : says s j -> says s' j' -> bare s false false = bare s' false false -> pretty s = pretty s'.
Proof.
  intros H H' E. rewrite (proj1 (pretty_says s j H)), (proj1 (pretty_says s' j' H')). rewrite !(bare_compact _ Outside) in E.
  rewrite <- (indented_compact s), <- (indented_compact s'). now rewrite E.
Qed.
Lemma pretty_again s : pretty (pretty s) = pretty s.
Proof.
  destruct (says_or_not s) as [(j & H)|H].
  - destruct (pretty_says s j H) as (_ & T & _). apply (pretty_same _ _ j j); [now apply says_itself|exact H|]. eapply pretty_bare. exact H.
  - now rewrite (pretty_nothing s H).
Qed.
