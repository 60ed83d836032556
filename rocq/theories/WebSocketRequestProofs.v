(** Proofs about the requests of the WebSocket API. *)
From Coq Require Import PeanoNat.
From Verif Require Import Base LogSpec Core DecText Text PathSpec PathProofs NumberSpec NumberProofs Http HttpSpec HttpProofs Broadcaster Subscription WebSocket WebSocketSpec.
Open Scope list_scope.
Open Scope string_scope.
Open Scope N_scope.

Lemma start_reads param g : start_number param = Some g <-> asks_from param g.
Proof.
  unfold start_number, asks_from. destruct (String.eqb_spec param "") as [->|Hn].
  - split; [intros E; injection E as <-; auto|]. intros [[_ ->]|[K _]]; [reflexivity|congruence].
  - unfold parse_uint. destruct param as [|a s]; [congruence|].
    destruct (digits 0 (String a s)) as [v rest] eqn:E. split.
    + destruct rest; [|discriminate]. destruct (v <? two64) eqn:L; [|discriminate]. intros K. injection K as <-.
      apply digits_reads in E as [E1 E2]. apply N.ltb_lt in L. right. auto.
    + intros [[K _]|(_ & K1 & K2 & K3)]; [congruence|].
      pose proof (proj2 (digits_reads (String a s) 0 g) (conj K1 K2)) as F. rewrite F in E. injection E as <- <-.
      apply N.ltb_lt in K3. now rewrite K3.
Qed.

Lemma ws_two b param : addressable b -> ws_path ("/events/" ++ b) param = ws_segments ["events"; b] param.
Proof.
  intros (Hb & Hb0 & Hb1 & Hb2). unfold ws_path, clean_path.
  change ("/events/" ++ b) with ("/" ++ "events" ++ "/" ++ b). rewrite split_slash by (reflexivity || assumption).
  cbn [clean_segments]. cbn [String.eqb Ascii.eqb Bool.eqb orb].
  rewrite (proj2 (String.eqb_neq b "")), (proj2 (String.eqb_neq b ".")), (proj2 (String.eqb_neq b "..")) by assumption.
  cbn [orb clean_segments rev app join]. unfold last_empty. cbn [last].
  rewrite (proj2 (String.eqb_neq b "")) by assumption. cbn [andb]. rewrite app_nil_s, String.eqb_refl. reflexivity.
Qed.

Lemma chars_addressable b : all_chars type_char b = true -> lacks "/" b = true -> b <> "" -> addressable b.
Proof. intros Hc Hl H0. repeat split; auto; intros ->; discriminate Hc. Qed.

Lemma ws_types raw ts param g : path_is raw ("/events/" ++ join "," ts) -> ts <> [] -> Forall only_letters ts -> join "," ts <> "" ->
  asks_from param g -> ws_request raw param = Subscribed (map Some ts) g.
Proof.
  intros P Hts Hf H0 A. apply spelled_unescape in P. unfold ws_request. rewrite P. destruct (join_chars ts Hts Hf) as [Hc Hx].
  rewrite ws_two by now apply chars_addressable.
  cbn [ws_segments]. rewrite (proj2 (String.eqb_neq _ "")) by exact H0. rewrite Hc. cbn [String.eqb Ascii.eqb Bool.eqb negb andb].
  unfold subscribe_request. apply start_reads in A. rewrite A. do 2 f_equal.
  pose proof (split_join_byte ","%char ts Hts) as Hs. apply Hs. apply forallb_forall. intros t Ht.
  rewrite Forall_forall in Hf. apply letters_chars. now apply Hf.
Qed.

Lemma ws_types_bad raw ts param : path_is raw ("/events/" ++ join "," ts) -> ts <> [] -> Forall only_letters ts -> join "," ts <> "" ->
  (forall g, ~ asks_from param g) -> ws_request raw param = BadRequest.
Proof.
  intros P Hts Hf H0 A. apply spelled_unescape in P. unfold ws_request. rewrite P. destruct (join_chars ts Hts Hf) as [Hc Hx].
  rewrite ws_two by now apply chars_addressable.
  cbn [ws_segments]. rewrite (proj2 (String.eqb_neq _ "")) by exact H0. rewrite Hc. cbn [String.eqb Ascii.eqb Bool.eqb negb andb].
  unfold subscribe_request. destruct (start_number param) as [g|] eqn:E; [|reflexivity]. apply start_reads in E. now apply A in E.
Qed.

Lemma ws_all raw param : path_is raw "/events" -> ws_request raw param = subscribe_request [None] param.
Proof. intros P. apply spelled_unescape in P. unfold ws_request. rewrite P. reflexivity. Qed.

Lemma split_letters x t : all_chars type_char x = true -> In t (split_str "," x) -> only_letters t.
Proof.
  intros Ex Ht. pose proof (split_lacks ","%char _ _ Ht) as Hc.
  assert (Hx : forall s cur, all_chars type_char cur = true -> all_chars type_char s = true ->
    forall y, In y (split_from "," 0 cur s) -> all_chars type_char y = true).
  { clear. induction s as [|a s IH]; intros cur Hcur Hs y; cbn [split_from]; [intros [<-|[]]; exact Hcur|].
    cbn [all_chars] in Hs. apply andb_prop in Hs as [Ha Hs]. cbn [String.prefix].
    destruct (Ascii.ascii_dec "," a).
    - replace (String.prefix "" s) with true by (destruct s; reflexivity).
      cbn [String.length Nat.sub]. intros [<-|H]; [exact Hcur|]. now apply (IH "").
    - apply IH; auto. rewrite chars_app, Hcur. cbn. now rewrite Ha. }
  specialize (Hx x "" eq_refl Ex t Ht). clear -Hc Hx. induction t as [|a t IH]; cbn [only_letters]; [exact Logic.I|].
  cbn [all_chars lacks] in *. apply andb_prop in Hc as [Hc1 Hc]. apply andb_prop in Hx as [Hx1 Hx]. split; [|now apply IH].
  unfold plain_letter, type_char in *. cbv zeta in *. repeat rewrite orb_true_iff in Hx1. rewrite !andb_true_iff, !N.leb_le, !N.eqb_eq in Hx1.
  destruct Hx1 as [[[?|?]|?]|E]; auto. exfalso.
  assert (a = ","%char) by (rewrite <- (ascii_N_embedding a), E; reflexivity). subst a. discriminate.
Qed.

(** Whatever the request: what it can subscribe to. *)
Lemma ws_reached raw param qs g : ws_request raw param = Subscribed qs g ->
  asks_from param g
  /\ (qs = [None] /\ path_is raw "/events"
      \/ exists ts, qs = map Some ts /\ Forall only_letters ts /\ path_is raw ("/events/" ++ join "," ts)).
Proof.
  unfold ws_request, path_is. destruct (unescape false raw) as [p|] eqn:Eu; [|discriminate]. apply unescape_spelled in Eu. unfold ws_path.
  destruct (String.eqb_spec (clean_path p) p) as [C|C]; cbn [negb]; [|discriminate].
  pose proof (join_split "/"%char p) as J. destruct (split_str "/" p) as [|z segs] eqn:Es; [discriminate|].
  assert (Z : segs <> [] -> z = "").
  { intros NE. destruct segs as [|s0 segs]; [congruence|]. destruct z as [|a z]; [reflexivity|exfalso].
    assert (In (String a z) (split_str "/" p)) as I by (rewrite Es; now left). apply split_lacks in I.
    unfold clean_path in C. cbv zeta in C. set (k := join "/" (clean_segments _ _) ++ _) in C. clearbody k. rewrite <- J in C. change (join "/" (String a z :: s0 :: segs)) with (String a z ++ "/" ++ join "/" (s0 :: segs)) in C.
    cbn [append] in C. injection C as C _. subst a. discriminate I. }
  destruct (_ && _).
  { destruct (ws_segments _ _); discriminate. }
  destruct segs as [|a [|b [|? ?]]]; cbn [ws_segments]; try discriminate.
  - destruct (String.eqb_spec a "events") as [->|]; [|discriminate]. unfold subscribe_request.
    destruct (start_number param) as [v|] eqn:E; [|discriminate]. intros H. injection H as <- <-. apply start_reads in E.
    split; [exact E|]. left. split; [reflexivity|]. rewrite <- J, Z in Eu by discriminate. exact Eu.
  - destruct (String.eqb_spec a "events") as [->|]; [|discriminate].
    destruct (String.eqb b ""); [discriminate|]. destruct (all_chars type_char b) eqn:Ec; [|discriminate]. cbn [negb andb]. unfold subscribe_request.
    destruct (start_number param) as [v|] eqn:E; [|discriminate]. intros H. injection H as <- <-. apply start_reads in E.
    split; [exact E|]. right. exists (split_str "," b). split; [reflexivity|]. split.
    + apply Forall_forall. intros t. now apply split_letters.
    + rewrite (join_split ","%char b). rewrite <- J, Z in Eu by discriminate. exact Eu.
Qed.
