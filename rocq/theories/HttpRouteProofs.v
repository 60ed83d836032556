(** Proofs about routing: which paths lead where, exactly. *)
From Coq Require Import PeanoNat.
From Verif Require Import Base Core CoreSpec CoreProofs DecText Text PathSpec PathProofs Json Remote Http HttpSpec HttpProofs.
Open Scope list_scope.
Open Scope string_scope.

(** A clean path starts with a slash, and its segments are ordinary. *)
Lemma clean_names : forall segs acc, (forall x, In x acc -> addressable x) -> (forall x, In x segs -> lacks "/" x = true) ->
  forall x, In x (clean_segments acc segs) -> addressable x.
Proof.
  induction segs as [|y segs IH]; intros acc Ha Hs x; cbn [clean_segments].
  - rewrite <- in_rev. apply Ha.
  - destruct (String.eqb_spec y "") as [E0|N0]; cbn [orb]; [apply IH; auto; intros z Hz; apply Hs; now right|].
    destruct (String.eqb_spec y ".") as [E1|N1]; cbn [orb]; [apply IH; auto; intros z Hz; apply Hs; now right|].
    destruct (String.eqb_spec y "..") as [E2|N2].
    + apply IH; [|intros z Hz; apply Hs; now right]. intros z Hz. apply Ha. destruct acc; [contradiction|now right].
    + apply IH; [|intros z Hz; apply Hs; now right]. intros z [<-|Hz]; [|now apply Ha]. split; [apply Hs; now left|auto].
Qed.

Lemma clean_slash p : clean_path p = p -> exists t, p = String "/" t.
Proof. intros H. unfold clean_path in H. cbv zeta in H. rewrite <- H. cbn [append]. eauto. Qed.

Lemma split_cons_slash t : split_str "/" (String "/" t) = "" :: split_str "/" t.
Proof. unfold split_str. cbn [split_from String.prefix]. destruct (Ascii.ascii_dec "/" "/"); [|congruence]. destruct t; reflexivity. Qed.

(** The segments of a path that is clean and does not end with a slash. *)
Lemma route_segs p r : route_path p = r -> r <> Redirect -> r <> NotFound ->
  exists segs, p = "/" ++ join "/" segs /\ route_segments segs = r /\ (forall x, In x segs -> lacks "/" x = true)
    /\ (forall a b, segs = [a; b] -> addressable b).
Proof.
  unfold route_path. destruct (String.eqb_spec (clean_path p) p) as [C|C]; cbn [negb]; [|congruence].
  destruct (clean_slash p C) as (t & ->). rewrite split_cons_slash. pose proof (join_split "/"%char t) as J.
  assert (Hl : forall x, In x (split_str "/" t) -> lacks "/" x = true) by (intros x Hx; now apply (split_lacks "/"%char t)).
  destruct (last_empty (split_str "/" t) && _) eqn:E.
  - intros H. destruct (route_segments _) eqn:Er; cbn [slashed] in H; intros N1 N2; congruence.
  - intros H N1 N2. exists (split_str "/" t). split; [change (String "/" t) with ("/" ++ t); f_equal; now rewrite J|]. split; [exact H|]. split; [exact Hl|].
    intros a b Hs. unfold clean_path in C. cbv zeta in C. rewrite split_cons_slash, Hs in C. cbn [clean_segments] in C.
    cbn [String.eqb orb] in C. rewrite Hs in J, Hl, E. change (join (String "/" "") [a; b]) with (a ++ "/" ++ b) in J.
    assert (La : lacks "/" a = true) by (apply Hl; now left). assert (Lb : lacks "/" b = true) by (apply Hl; right; now left).
    unfold last_empty in E. cbn [last length Nat.ltb Nat.leb] in E. rewrite andb_true_r in E.
    assert (D : forall x, lacks "/" x = true -> x <> a ++ "/" ++ b).
    { intros x Hx E'. rewrite E', !lacks_app in Hx. cbn in Hx. rewrite andb_false_r in Hx. discriminate. }
    unfold last_empty in C. cbn [last] in C. rewrite E in C. cbn [andb] in C. rewrite app_nil_s in C. change (String "/" t) with ("/" ++ t) in C.
    cbn [append] in C. injection C as C. rewrite <- J in C.
    split; [exact Lb|]. apply String.eqb_neq in E. split; [exact E|].
    destruct (String.eqb_spec a "") as [Ea|Na]; cbn [orb] in C.
    { destruct (String.eqb_spec b "") as [Eb|Nb]; [contradiction|]. cbn [orb] in C.
      destruct (String.eqb_spec b ".") as [Eb1|Nb1]; cbn [orb] in C; [exfalso; subst; discriminate C|].
      destruct (String.eqb_spec b "..") as [Eb2|Nb2]; [exfalso; subst; discriminate C|]. auto. }
    destruct (String.eqb_spec a ".") as [Ea1|Na1]; cbn [orb] in C.
    { exfalso. revert C. apply D. destruct (String.eqb b "."); [reflexivity|]. destruct (String.eqb b ".."); [reflexivity|exact Lb]. }
    destruct (String.eqb_spec a "..") as [Ea2|Na2].
    { exfalso. revert C. apply D. destruct (String.eqb b "."); [reflexivity|]. destruct (String.eqb b ".."); [reflexivity|exact Lb]. }
    destruct (String.eqb_spec b "") as [Eb|Nb]; [contradiction|]. cbn [orb] in C.
    destruct (String.eqb_spec b ".") as [Eb1|Nb1]; cbn [orb] in C.
    { exfalso. cbn [clean_segments rev app join] in C. revert C. now apply D. }
    destruct (String.eqb_spec b "..") as [Eb2|Nb2].
    { exfalso. cbn [clean_segments rev app tl join] in C. destruct a; discriminate C. }
    auto.
Qed.

Lemma route_inv q r : route_of (q_path q) = Some r ->
  match r with
  | ToSave n => addressable n /\ addressed q "save-events" n
  | ToDelete n => addressable n /\ addressed q "delete-stream" n
  | ToAll e => ext_of e /\ spelled (q_path q) ("/all-events." ++ e)
  | ToStream n e => n <> "" /\ lacks "/" n = true /\ ext_of e /\ addressed q "events-by-stream" (n ++ "." ++ e)
  | ToTypes ts e => Forall only_letters ts /\ ext_of e /\ addressed q "events-by-aggregate-type" (join "," ts ++ "." ++ e)
  | _ => True
  end.
Proof.
  intros H. pose proof (reached (q_path q)) as [R1 R2]. unfold route_of in H, R1, R2.
  destruct (unescape false (q_path q)) as [p|] eqn:U; [|discriminate]. apply unescape_spelled in U. injection H as H.
  assert (X : forall e, extension e = true -> ext_of e).
  { intros e He. apply extension_cases in He as [->|[->| ->]]; cbn; auto. }
  assert (G : r <> Redirect -> r <> NotFound -> exists segs, p = "/" ++ join "/" segs /\ route_segments segs = r /\ (forall x, In x segs -> lacks "/" x = true)
    /\ (forall a b, segs = [a; b] -> addressable b)) by now apply route_segs.
  rewrite H in R1, R2.
  destruct r; try exact Logic.I; destruct G as (segs & -> & Hr & Hl & Hb); try discriminate;
    destruct segs as [|a [|b [|? ?]]]; cbn [route_segments] in Hr; try discriminate;
    repeat match goal with
    | H : (if String.eqb ?x ?y then _ else _) = _ |- _ => destruct (String.eqb_spec x y); [try discriminate H|try discriminate H]
    | H : match cut_last_dot ?x with _ => _ end = _ |- _ => destruct (cut_last_dot x) as [[z0 z1]|] eqn:Ec; [|discriminate H]
    | H : (if ?c then _ else _) = _ |- _ => let E := fresh "E" in destruct c eqn:E; try discriminate H
    end; subst; try (injection Hr as <-; subst).
  - split; [now apply (Hb "delete-stream" b)|exact U].
  - split; [now apply (Hb "save-events" b)|exact U].
  - apply andb_prop in E as [E1 E2]. apply String.eqb_eq in E1. subst z0. apply cut_last_eq in Ec. subst a.
    split; [now apply X|exact U].
  - apply orb_false_iff in E as [E1 E2]. apply negb_false_iff in E2. apply String.eqb_neq in E1. apply cut_last_eq in Ec. subst b.
    split; [exact E1|]. split; [apply R1; eauto|]. split; [now apply X|exact U].
  - apply orb_false_iff in E as [E1 E2]. apply negb_false_iff in E2. apply cut_last_eq in Ec. subst b.
    apply andb_prop in E0 as [E3 E4]. apply String.eqb_eq in E3. subst a.
    split; [apply Forall_forall; intros t Ht; now apply (R2 _ _ t eq_refl)|]. split; [now apply X|].
    unfold addressed. rewrite (join_split ","%char z0). exact U.
Qed.


(** Two stores that answer alike what a request asks are alike to it. *)
Lemma only_asked of_lit print St (store store' : St -> op -> St * out) s q :
  (forall o, asks q o -> store' s o = store s o) ->
  http_step of_lit print St store' s q = http_step of_lit print St store s q.
Proof.
  intros H. unfold http_step. destruct (route_of (q_path q)) as [r|] eqn:E; [|reflexivity]. apply route_inv in E.
  destruct r; try reflexivity; unfold read_with, save_events, delete_stream.
  - destruct (expected_header q); [|reflexivity]. now rewrite H by exact E.
  - destruct (negb _); [reflexivity|]. destruct (event_records of_lit print q); [|reflexivity].
    destruct (expected_header q); [|reflexivity]. now rewrite H by exact E.
  - rewrite H; [reflexivity|]. cbn. split; [reflexivity|]. now exists ext.
  - rewrite H; [reflexivity|]. cbn. destruct E as (E1 & E2 & E3 & E4). repeat split; auto. now exists ext.
  - rewrite H; [reflexivity|]. cbn. destruct E as (E1 & E2 & E3). repeat split; auto. now exists ext.
Qed.
