(** C34: which texts are read as a conflict with which numbers. *)
From Coq Require Import Arith.
From Verif Require Import Base Core DecText Text Remote RemoteProofs.
Open Scope string_scope.
Open Scope list_scope.
Open Scope N_scope.

(** Digits and the number they stand for; leading zeros are allowed. *)
Definition digits_only (s : string) : Prop := s <> "" /\ Forall (fun a => 48 <= N_of_ascii a <= 57) (list_ascii_of_string s).
Definition stands_for (s : string) : N := fold_left (fun v a => 10 * v + (N_of_ascii a - 48)) (list_ascii_of_string s) 0.
(** Blanks: tab, vertical tab, form feed, carriage return, space. *)
Definition blanks (s : string) : Prop :=
  Forall (fun a => In (N_of_ascii a) [9; 11; 12; 13; 32]) (list_ascii_of_string s).

Lemma app_nil_str (s : string) : (s ++ "")%string = s.
Proof. induction s; cbn; congruence. Qed.
Lemma app_assoc_str (a b c : string) : ((a ++ b) ++ c)%string = (a ++ b ++ c)%string.
Proof. induction a; cbn; congruence. Qed.

(** ** Splitting at a separator of any length *)
Lemma split_skip sep cur : forall t s, split_from sep (String.length t) cur (t ++ s) = split_from sep O cur s.
Proof. induction t as [|a t IH]; intros s; cbn; [reflexivity|]. apply IH. Qed.
Lemma prefix_is sep : forall s, String.prefix sep s = true -> exists r, s = (sep ++ r)%string.
Proof.
  induction sep as [|a sep IH]; intros s H; [exists s; reflexivity|]. destruct s as [|b s]; [discriminate|]. cbn in H.
  destruct (Ascii.ascii_dec a b) as [<-|]; [|discriminate]. destruct (IH s H) as (r & ->). exists r. reflexivity.
Qed.
Lemma join_split_any sep : sep <> "" -> forall n s cur, (String.length s <= n)%nat -> join sep (split_from sep O cur s) = (cur ++ s)%string
  /\ split_from sep O cur s <> [].
Proof.
  intros Hsep. induction n as [|n IH]; intros s cur Hn.
  - destruct s; [|cbn in Hn; lia]. cbn. rewrite app_nil_str. split; [reflexivity|discriminate].
  - destruct s as [|a s]; [cbn; rewrite app_nil_str; split; [reflexivity|discriminate]|]. cbn [split_from].
    destruct (String.prefix sep (String a s)) eqn:Ep.
    + destruct (prefix_is _ _ Ep) as (r & E). destruct sep as [|b sep]; [congruence|]. cbn in E. injection E as <- E. subst s.
      cbn [String.length]. replace (S (String.length sep) - 1)%nat with (String.length sep) by lia. rewrite split_skip.
      assert (Hr : (String.length r <= n)%nat).
      { clear - Hn. cbn [String.length] in Hn. enough (String.length r <= String.length (sep ++ r))%nat by lia.
        clear. induction sep; cbn; lia. }
      destruct (IH r "" Hr) as [J Ne]. split; [|discriminate]. destruct (split_from (String a sep) 0 "" r) as [|x l]; [congruence|].
      change (join (String a sep) (cur :: x :: l)) with (cur ++ String a sep ++ join (String a sep) (x :: l))%string. rewrite J. reflexivity.
    + destruct (IH s (cur ++ String a "")%string) as [J Ne]; [cbn in Hn; lia|]. split; [|exact Ne]. rewrite J, app_assoc_str. reflexivity.
Qed.

(** ** The scanner *)
Lemma blank_is a : blank a = true -> In (N_of_ascii a) [9; 11; 12; 13; 32].
Proof.
  unfold blank. intros H. rewrite !orb_true_iff, andb_true_iff, !N.eqb_eq, !N.leb_le in H. cbn.
  assert (N_of_ascii a = 9 \/ N_of_ascii a = 11 \/ N_of_ascii a = 12 \/ N_of_ascii a = 13 \/ N_of_ascii a = 32) by lia. intuition.
Qed.
Lemma skip_is : forall s, exists b, blanks b /\ s = (b ++ skip_blank s)%string.
Proof.
  induction s as [|a s IH]; cbn [skip_blank]; [exists ""; split; [constructor|reflexivity]|].
  destruct (blank a) eqn:E; [|exists ""; split; [constructor|reflexivity]].
  destruct IH as (b & Hb & Eb). exists (String a b). split; [constructor; [now apply blank_is|exact Hb]|]. cbn. now rewrite <- Eb.
Qed.
Lemma digit_is a d : digit a = Some d -> 48 <= N_of_ascii a <= 57 /\ d = N_of_ascii a - 48.
Proof. unfold digit. destruct (_ && _) eqn:E; [|discriminate]. intros [= <-]. apply andb_true_iff in E. rewrite !N.leb_le in E. auto. Qed.
Lemma digits_is : forall s v w r, digits v s = (w, r) -> exists ds, s = (ds ++ r)%string
  /\ Forall (fun a => 48 <= N_of_ascii a <= 57) (list_ascii_of_string ds)
  /\ w = fold_left (fun v a => 10 * v + (N_of_ascii a - 48)) (list_ascii_of_string ds) v
  /\ (match s with String a _ => digit a <> None | _ => False end -> ds <> "").
Proof.
  induction s as [|a s IH]; intros v w r; cbn [digits].
  - intros [= <- <-]. exists "". cbn. repeat split; auto.
  - destruct (digit a) as [d|] eqn:E.
    + intros H. destruct (IH _ _ _ H) as (ds & -> & Hd & -> & _). apply digit_is in E as [E ->].
      exists (String a ds). cbn. repeat split; auto. discriminate.
    + intros [= <- <-]. exists "". cbn. repeat split; auto; congruence.
Qed.
Lemma uint_is s v r : scan_uint s = Some (v, r) -> exists b ds, s = (b ++ ds ++ r)%string /\ blanks b /\ digits_only ds /\ v = stands_for ds /\ v < 2 ^ 64.
Proof.
  unfold scan_uint. destruct (skip_is s) as (b & Hb & Es). destruct (skip_blank s) as [|c rest]; [discriminate|].
  destruct (digit c) as [d|] eqn:Ed; [|discriminate]. destruct (digits 0 (String c rest)) as [w r'] eqn:E.
  destruct (N.ltb_spec w two64) as [Hw|]; [|discriminate]. intros [= <- <-].
  destruct (digits_is _ _ _ _ E) as (ds & Eds & Hd & -> & Hne). exists b, ds. rewrite <- Eds.
  repeat split; auto. apply Hne. congruence.
Qed.
Lemma text_is : forall p s r, scan_text p s = Some r -> s = (p ++ r)%string.
Proof.
  induction p as [|a p IH]; intros s r; cbn [scan_text]; [intros [= <-]; reflexivity|]. destruct s as [|b s]; [discriminate|].
  destruct (Ascii.eqb_spec a b) as [<-|]; [|discriminate]. intros H. cbn. now rewrite <- (IH _ _ H).
Qed.
Lemma space_is s r : scan_space s = Some r -> exists b, s = (b ++ r)%string /\ blanks b /\ (s <> "" -> b <> "").
Proof.
  unfold scan_space. destruct s as [|a s]; [intros [= <-]; exists ""; repeat split; [constructor|congruence]|].
  destruct (blank a) eqn:E; [|discriminate]. intros [= <-]. cbn [skip_blank]. rewrite E. destruct (skip_is s) as (b & Hb & Es).
  exists (String a b). split; [cbn; now rewrite <- Es|]. split; [constructor; [now apply blank_is|exact Hb]|discriminate].
Qed.

(** The text holds "unexpected sequence number:", the two numbers and "actual:" between
    them, and nothing but blanks besides. *)
Definition says_conflict (input : string) (e a : N) : Prop :=
  exists pre b0 de b1 b2 da post,
    input = (pre ++ "unexpected sequence number:" ++ b0 ++ de ++ "," ++ b1 ++ "actual:" ++ b2 ++ da ++ post)%string
    /\ blanks b0 /\ blanks b1 /\ blanks b2 /\ b1 <> "" /\ b2 <> ""
    /\ digits_only de /\ digits_only da /\ stands_for de = e /\ stands_for da = a /\ e < 2 ^ 64 /\ a < 2 ^ 64.

(** C34: numbers other than 0, 0 are never made up: the text says them. *)
Theorem C34_numbers_come_from_the_text : forall input e a,
  unexpected_from input = (e, a) -> (e, a) <> (0, 0) -> says_conflict input e a.
Proof.
  intros input e a H Hn. unfold unexpected_from in H.
  destruct (join_split_any "unexpected sequence number:" ltac:(discriminate) (String.length input) input "" (le_n _)) as [J _].
  fold (split_str "unexpected sequence number:" input) in J. cbn [append] in J.
  destruct (split_str "unexpected sequence number:" input) as [|pre [|piece rest]]; [congruence|congruence|].
  destruct (scan_numbers piece) as [[e' a']|] eqn:E; [|congruence]. injection H as -> ->.
  unfold scan_numbers in E. destruct (scan_uint piece) as [[e1 s1]|] eqn:E1; [|discriminate].
  destruct (scan_text "," s1) as [s2|] eqn:E2; [|discriminate]. destruct (scan_space s2) as [s3|] eqn:E3; [|discriminate].
  destruct (scan_text "actual:" s3) as [s4|] eqn:E4; [|discriminate]. destruct (scan_space s4) as [s5|] eqn:E5; [|discriminate].
  destruct (scan_uint s5) as [[a1 s6]|] eqn:E6; [|discriminate]. injection E as -> ->.
  apply uint_is in E1 as (b0 & de & -> & B0 & De & Ve & Le). apply text_is in E2. subst s1.
  apply space_is in E3 as (b1 & Eb1 & B1 & N1). apply text_is in E4.
  apply space_is in E5 as (b2 & Eb2 & B2 & N2). apply uint_is in E6 as (b3 & da & -> & B3 & Da & Va & La).
  assert (S2 : s2 <> "") by (subst s3; rewrite Eb1; destruct b1; discriminate).
  assert (S4 : s4 <> "").
  { rewrite Eb2. intros X. destruct b2, b3; try discriminate X. destruct Da as [Da _]. destruct da; [congruence|discriminate X]. }
  assert (J' : exists post, input = (pre ++ "unexpected sequence number:" ++ (b0 ++ de ++ "," ++ s2) ++ post)%string).
  { destruct rest as [|x rest].
    - exists "". rewrite app_nil_str. symmetry. exact J.
    - eexists. symmetry. exact J. }
  destruct J' as (post & J'). exists pre, b0, de, b1, (b2 ++ b3)%string, da, (s6 ++ post)%string.
  split; [rewrite J', Eb1, E4, Eb2; rewrite !app_assoc_str; reflexivity|].
  assert (Bb : blanks (b2 ++ b3)).
  { unfold blanks in *. clear - B2 B3. induction b2 as [|c b2 IH]; [exact B3|]. cbn in *. inversion B2; subst. constructor; auto. }
  split; [exact B0|]. split; [exact B1|]. split; [exact Bb|]. split; [auto|].
  split; [specialize (N2 S4); destruct b2; [congruence|discriminate]|]. auto 10.
Qed.
Print Assumptions C34_numbers_come_from_the_text.

(** Non-vacuity: blanks and leading zeros; and a text of another shape gives 0, 0. *)
Example C34_text_inhabited :
  unexpected_from "x: unexpected sequence number:  007,   actual: 12 and more" = (7, 12)
  /\ unexpected_from "unexpected sequence number: 7; actual: 12" = (0, 0)
  /\ unexpected_from "unexpected sequence number: 7, actuaI: 12" = (0, 0).
Proof. repeat split; vm_compute; reflexivity. Qed.
