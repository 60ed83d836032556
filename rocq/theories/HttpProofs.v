(** Supporting proofs about the HTTP interface. *)
From Coq Require Import Permutation PeanoNat.
From Verif Require Import Base Core CoreSpec CoreProofs DecText Text PathSpec PathProofs Json Remote Http HttpSpec LogSpec StoreSpec.
Open Scope string_scope.
Open Scope list_scope.
Open Scope N_scope.

(** ** Bodies *)
Section Bodies.
Variable of_lit : string -> float.
Variable print : goval -> string.

Definition five : list string := ["aggregateType"; "aggregateID"; "eventType"; "data"; "metadata"].

Lemma member_commutes w k v k' v' : In k five -> In k' five -> k <> k' ->
  match set_member of_lit w k v with Some w' => set_member of_lit w' k' v' | None => None end
  = match set_member of_lit w k' v' with Some w' => set_member of_lit w' k v | None => None end.
Proof.
  intros H H' Hne. unfold five in *. cbn [In] in H, H'.
  destruct H as [<-|[<-|[<-|[<-|[<-|[]]]]]]; destruct H' as [<-|[<-|[<-|[<-|[<-|[]]]]]];
    try congruence; unfold set_member;
    repeat match goal with |- context [fold_eq ?a ?b] =>
      let x := eval vm_compute in (fold_eq a b) in change (fold_eq a b) with x end; 
    destruct v, v'; reflexivity.
Qed.

Lemma members_perm l l' : Permutation l l' -> forall w, (forall k v, In (k, v) l -> In k five) -> NoDup (map fst l) ->
  set_members of_lit w l = set_members of_lit w l'.
Proof.
  induction 1 as [|[k v] l l' Hp IH|[k v] [k' v'] l|l1 l2 l3 H1 IH1 H2 IH2]; intros w Hk Hnd; cbn [set_members].
  - reflexivity.
  - cbn in Hnd. inversion Hnd; subst. destruct (set_member of_lit w k v); [|reflexivity].
    apply IH; auto. intros; eapply Hk; right; eauto.
  - cbn in Hnd. inversion Hnd as [|? ? Hn _]; subst.
    pose proof (member_commutes w k v k' v') as E.
    assert (Hne : k <> k') by (intros ->; apply Hn; now left).
    specialize (E (Hk k v (or_intror (or_introl eq_refl))) (Hk k' v' (or_introl eq_refl)) Hne).
    destruct (set_member of_lit w k' v') as [w1|] eqn:E1; destruct (set_member of_lit w k v) as [w2|] eqn:E2; cbn in *.
    + now rewrite <- E.
    + now rewrite <- E.
    + now rewrite E.
    + reflexivity.
  - rewrite IH1 by auto. apply IH2.
    + intros k v Hi. eapply Hk. eapply Permutation_in; [apply Permutation_sym; exact H1|exact Hi].
    + eapply Permutation_NoDup; [apply Permutation_map; exact H1|exact Hnd].
Qed.

Definition raw_event (e : client_event) : raw :=
  mk_raw (ce_atype e) (ce_aid e) (ce_etype e) (decode of_lit false (ce_data e)) (decode of_lit false (ce_meta e)).

Lemma described j e : describes j e -> raw_of of_lit j = Some (raw_event e).
Proof.
  intros (l & -> & Hp). cbn [raw_of]. apply Permutation_sym in Hp.
  rewrite <- (members_perm _ _ Hp).
  - reflexivity.
  - intros k v Hi. unfold five. cbn in Hi. cbn [In].
    repeat (destruct Hi as [Hi|Hi]; [injection Hi as <- _; tauto|]). contradiction.
  - cbn. repeat constructor; cbn; intuition discriminate.
Qed.

Lemma described_list l es : Forall2 describes l es -> raws_of of_lit l = Some (map raw_event es).
Proof. induction 1 as [|j e l es Hj Hl IH]; cbn [raws_of map]; [reflexivity|]. rewrite (described _ _ Hj), IH. reflexivity. Qed.

Lemma described_body q es : describes_all (q_body q) es ->
  event_records of_lit print q = Some (stamped print (q_stamp q) 0 (map raw_event es)).
Proof. intros (l & E & F). unfold event_records. rewrite E. now rewrite (described_list _ _ F). Qed.

Lemma stamped_length st i ws : length (stamped print st i ws) = length ws.
Proof. revert i. induction ws; intros; cbn; auto. Qed.

Lemma stamped_in st ws : forall i e, In e (stamped print st i ws) -> exists w, In w ws /\
  ev_atype e = w_atype w /\ ev_aid e = w_aid w /\ ev_type e = w_etype w /\ ev_data e = print (w_data w) /\ ev_meta e = print (w_meta w).
Proof.
  induction ws as [|w ws IH]; intros i e H; [contradiction|]. destruct H as [<-|H].
  - exists w. cbn. tauto.
  - destruct (IH _ _ H) as (w' & Hw & H'). exists w'. split; [now right|exact H'].
Qed.

Lemma stamped_aggregate st es : client_aggregate es -> one_aggregate (stamped print st 0 (map raw_event es)).
Proof.
  intros Hc e e' He He'. destruct (stamped_in _ _ _ _ He) as (w & Hw & E1 & E2 & _). destruct (stamped_in _ _ _ _ He') as (w' & Hw' & E1' & E2' & _).
  apply in_map_iff in Hw as (x & <- & Hx). apply in_map_iff in Hw' as (x' & <- & Hx'). cbn in *.
  destruct (Hc x x' Hx Hx'). split; congruence.
Qed.

Lemma stored_content s st es : forall i g k,
  map said (records_from s g k (stamped print st i (map raw_event es)))
  = map (described_as (fun j => print (decode of_lit false j)) s) es.
Proof. induction es as [|e es IH]; intros i g k; cbn [map stamped records_from]; [reflexivity|]. f_equal. apply IH. Qed.
Lemma stored_stamps s st ws : forall i g k,
  map (fun r => (r_eid r, r_ts r)) (records_from s g k (stamped print st i ws)) = map st (seq i (length ws)).
Proof.
  induction ws as [|w ws IH]; intros i g k; cbn [map stamped records_from length seq]; [reflexivity|]. f_equal; [|apply IH].
  cbn. now destruct (st i).
Qed.
End Bodies.

(** ** Routes *)

Lemma split_slash a b : lacks "/" a = true -> lacks "/" b = true -> split_str "/" ("/" ++ a ++ "/" ++ b) = [""; a; b].
Proof.
  intros Ha Hb.
  pose proof (split_join_byte "/"%char ["" ; a; b] ltac:(discriminate)) as H. cbn [forallb join] in H.
  rewrite Ha, Hb in H. exact (H eq_refl).
Qed.
Lemma split_slash1 a : lacks "/" a = true -> split_str "/" ("/" ++ a) = [""; a].
Proof.
  intros Ha. pose proof (split_join_byte "/"%char ["" ; a] ltac:(discriminate)) as H. cbn [forallb join] in H.
  rewrite Ha in H. exact (H eq_refl).
Qed.

Lemma route_two a b : lacks "/" a = true -> a <> "" -> a <> "." -> a <> ".." -> addressable b ->
  route_path ("/" ++ a ++ "/" ++ b) = route_segments [a; b].
Proof.
  intros Ha Ha0 Ha1 Ha2 (Hb & Hb0 & Hb1 & Hb2). unfold route_path, clean_path. rewrite split_slash by assumption.
  cbn [clean_segments]. cbn [String.eqb orb].
  rewrite (proj2 (String.eqb_neq a "")), (proj2 (String.eqb_neq a ".")), (proj2 (String.eqb_neq a "..")) by assumption.
  rewrite (proj2 (String.eqb_neq b "")), (proj2 (String.eqb_neq b ".")), (proj2 (String.eqb_neq b "..")) by assumption.
  cbn [orb clean_segments rev app join]. unfold last_empty. cbn [last].
  rewrite (proj2 (String.eqb_neq b "")) by assumption. cbn [andb]. rewrite app_nil_s, String.eqb_refl. reflexivity.
Qed.

Lemma route_save q name : addressable name -> addressed q "save-events" name -> route_of (q_path q) = Some (ToSave name).
Proof.
  intros Hn H. apply spelled_unescape in H. unfold route_of. rewrite H. rewrite route_two by (reflexivity || discriminate || assumption).
  destruct Hn as (_ & H0 & _). cbn [route_segments]. now rewrite (proj2 (String.eqb_neq name "")) by assumption.
Qed.
Lemma route_delete q name : addressable name -> addressed q "delete-stream" name -> route_of (q_path q) = Some (ToDelete name).
Proof.
  intros Hn H. apply spelled_unescape in H. unfold route_of. rewrite H. rewrite route_two by (reflexivity || discriminate || assumption).
  destruct Hn as (_ & H0 & _). cbn [route_segments]. now rewrite (proj2 (String.eqb_neq name "")) by assumption.
Qed.

Lemma cut_dot x e : lacks "." e = true -> cut_last_dot (x ++ "." ++ e) = Some (x, e).
Proof.
  intros He. assert (H0 : cut_last_dot e = None).
  { clear -He. induction e as [|a e IH]; [reflexivity|]. cbn [lacks] in He. apply andb_prop in He as [Ha He].
    cbn [cut_last_dot]. rewrite (IH He). destruct (Ascii.eqb_spec a "."); [subst; discriminate|reflexivity]. }
  change ("." ++ e)%string with (String "." e).
  induction x as [|a x IH]; cbn [append cut_last_dot].
  - now rewrite H0.
  - now rewrite IH.
Qed.

Lemma extension_cases e : extension e = true -> e = "json" \/ e = "ndjson" \/ e = "msgpack".
Proof. unfold extension, memb. cbn [existsb]. rewrite !orb_true_iff, !String.eqb_eq. intuition congruence. Qed.

Lemma addressable_dotted x e : lacks "/" x = true -> extension e = true -> addressable (x ++ "." ++ e).
Proof.
  intros Hx He. assert (Hl : (3 <= String.length (x ++ "." ++ e))%nat).
  { rewrite app_length_s. apply extension_cases in He as [ -> |[ -> | -> ]]; cbn; lia. }
  split; [|repeat split; intros E; rewrite E in Hl; cbn in Hl; lia].
  rewrite lacks_app, Hx. apply extension_cases in He as [ -> |[ -> | -> ]]; reflexivity.
Qed.

Lemma route_stream q x e : lacks "/" x = true -> x <> "" -> extension e = true ->
  addressed q "events-by-stream" (x ++ "." ++ e) -> route_of (q_path q) = Some (ToStream x e).
Proof.
  intros Hx H0 He H. apply spelled_unescape in H. unfold route_of. rewrite H. pose proof (addressable_dotted _ _ Hx He) as Ha.
  rewrite route_two by (reflexivity || discriminate || assumption).
  destruct Ha as (_ & Hb & _). cbn [route_segments]. rewrite (proj2 (String.eqb_neq _ "")) by exact Hb.
  cbn [String.eqb Ascii.eqb Bool.eqb]. rewrite cut_dot by (apply extension_cases in He as [ -> |[ -> | -> ]]; reflexivity).
  rewrite (proj2 (String.eqb_neq x "")) by assumption. rewrite He. reflexivity.
Qed.

Lemma letters_chars x : only_letters x -> all_chars type_char x = true /\ lacks "/" x = true /\ lacks "," x = true.
Proof.
  induction x as [|a x IH]; cbn [only_letters all_chars lacks]; [auto|]. intros [Ha Hx]. destruct (IH Hx) as (H1 & H2 & H3).
  unfold plain_letter in Ha. cbv zeta in Ha.
  rewrite H1, H2, H3. repeat split; rewrite andb_true_r.
  - unfold type_char. cbv zeta. repeat rewrite orb_true_iff. rewrite !andb_true_iff, !N.leb_le, !N.eqb_eq. tauto.
  - destruct (Ascii.eqb_spec a "/") as [ -> |]; [exfalso; vm_compute in Ha; intuition (discriminate || congruence)|reflexivity].
  - destruct (Ascii.eqb_spec a ",") as [ -> |]; [exfalso; vm_compute in Ha; intuition (discriminate || congruence)|reflexivity].
Qed.

Lemma chars_app f x y : all_chars f (x ++ y) = all_chars f x && all_chars f y.
Proof. induction x as [|a x IH]; cbn [append all_chars]; [reflexivity|]. rewrite IH. now rewrite andb_assoc. Qed.
Lemma join_chars ts : ts <> [] -> Forall only_letters ts ->
  all_chars type_char (join "," ts) = true /\ lacks "/" (join "," ts) = true.
Proof.
  induction ts as [|t ts IH]; [congruence|]. intros _ Hf. inversion Hf; subst. destruct (letters_chars t H1) as (A & B & _).
  destruct ts as [|t2 ts]; [now split|]. destruct (IH ltac:(discriminate) H2) as [C D].
  change (join "," (t :: t2 :: ts)) with (t ++ "," ++ join "," (t2 :: ts))%string.
  rewrite !chars_app, !lacks_app, A, B, C, D. now split.
Qed.

Lemma route_types q ts e : ts <> [] -> Forall only_letters ts -> join "," ts <> "" -> extension e = true ->
  addressed q "events-by-aggregate-type" (join "," ts ++ "." ++ e) -> route_of (q_path q) = Some (ToTypes ts e).
Proof.
  intros Hts Hf H0 He H. apply spelled_unescape in H. unfold route_of. rewrite H.
  destruct (join_chars ts Hts Hf) as [Hc Hx]. pose proof (addressable_dotted _ _ Hx He) as Ha.
  rewrite route_two by (reflexivity || discriminate || assumption).
  destruct Ha as (_ & Hb & _). cbn [route_segments]. rewrite (proj2 (String.eqb_neq _ "")) by exact Hb.
  cbn [String.eqb Ascii.eqb Bool.eqb]. rewrite cut_dot by (apply extension_cases in He as [ -> |[ -> | -> ]]; reflexivity).
  rewrite (proj2 (String.eqb_neq _ "")) by exact H0. rewrite He, Hc. cbn [orb negb andb]. do 2 f_equal.
  pose proof (split_join_byte ","%char ts Hts) as Hs. apply Hs. apply forallb_forall. intros t Ht.
  rewrite Forall_forall in Hf. apply letters_chars. now apply Hf.
Qed.

Lemma split_from_lacks c s : forall cur, lacks c cur = true -> forallb (lacks c) (split_from (String c "") 0 cur s) = true.
Proof.
  induction s as [|a s IH]; intros cur Hc; cbn [split_from]; [cbn [forallb]; now rewrite Hc|].
  cbn [String.prefix].
  destruct (Ascii.ascii_dec c a) as [<-|Hne].
  - replace (String.prefix "" s) with true by (destruct s; reflexivity).
    cbn [forallb String.length Nat.sub]. rewrite Hc. now apply IH.
  - apply IH. rewrite lacks_app, Hc. cbn. now rewrite (proj2 (Ascii.eqb_neq a c)) by auto.
Qed.
Lemma split_lacks c s x : In x (split_str (String c "") s) -> lacks c x = true.
Proof. intros H. pose proof (split_from_lacks c s "" eq_refl) as F. rewrite forallb_forall in F. now apply F. Qed.

Lemma cut_last_eq s : forall x e, cut_last_dot s = Some (x, e) -> s = (x ++ "." ++ e)%string.
Proof.
  induction s as [|a s IH]; intros x e; cbn [cut_last_dot]; [discriminate|].
  destruct (cut_last_dot s) as [[y f]|] eqn:E.
  - intros H. injection H as <- <-. cbn [append]. f_equal. now apply IH.
  - destruct (Ascii.eqb_spec a "."); [|discriminate]. intros H. injection H as <- <-. now subst.
Qed.

Lemma in_removelast {A} (x : A) l : In x (removelast l) -> In x l.
Proof. induction l as [|a [|b l] IH]; cbn; [auto|intros []|]. intros [->|H]; [auto|right; now apply IH]. Qed.

(** Whatever the path: the names a request can reach. *)
Lemma reached raw :
  (forall n, route_of raw = Some (ToSave n) \/ route_of raw = Some (ToDelete n) \/ (exists e, route_of raw = Some (ToStream n e)) -> lacks "/" n = true)
  /\ (forall ts e t, route_of raw = Some (ToTypes ts e) -> In t ts -> only_letters t).
Proof.
  assert (Hseg : forall segs, (forall x, In x segs -> lacks "/" x = true) ->
    (forall n, route_segments segs = ToSave n \/ route_segments segs = ToDelete n \/ (exists e, route_segments segs = ToStream n e) -> lacks "/" n = true)
    /\ (forall ts e t, route_segments segs = ToTypes ts e -> In t ts -> only_letters t)).
  { intros segs Hl. destruct segs as [|a [|b [|? ?]]]; cbn [route_segments].
    - split; [intros n [H|[H|[e H]]]|intros ts e t H]; discriminate.
    - destruct (String.eqb a "health-check"); [split; [intros n [H|[H|[e H]]]|intros ts e t H]; discriminate|].
      destruct (String.eqb a "list-aggregate-types"); [split; [intros n [H|[H|[e H]]]|intros ts e t H]; discriminate|].
      destruct (cut_last_dot a) as [[x e]|]; [destruct (_ && _)|]; split; try (intros n [H|[H|[e' H]]]; discriminate); intros ts e' t H; discriminate.
    - assert (Hb : lacks "/" b = true) by (apply Hl; right; now left).
      destruct (String.eqb b ""); [split; [intros n [H|[H|[e H]]]|intros ts e t H]; discriminate|].
      destruct (String.eqb a "delete-stream"); [split; [intros n [H|[H|[e H]]]; try discriminate; injection H as <-; exact Hb|intros ts e t H; discriminate]|].
      destruct (String.eqb a "save-events"); [split; [intros n [H|[H|[e H]]]; try discriminate; injection H as <-; exact Hb|intros ts e t H; discriminate]|].
      destruct (cut_last_dot b) as [[x e]|] eqn:Ec; [|split; [intros n [H|[H|[e H]]]|intros ts e t H]; discriminate].
      destruct (_ || _); [split; [intros n [H|[H|[e' H]]]|intros ts e' t H]; discriminate|].
      destruct (String.eqb a "events-by-stream").
      { split; [intros n [H|[H|[e' H]]]; try discriminate|intros ts e' t H; discriminate].
        injection H as <- <-. apply cut_last_eq in Ec. rewrite Ec, lacks_app in Hb. now apply andb_prop in Hb. }
      destruct (String.eqb a "events-by-aggregate-type"); cbn [andb]; [|split; [intros n [H|[H|[e' H]]]|intros ts e' t H]; discriminate].
      destruct (all_chars type_char x) eqn:Ex; [|split; [intros n [H|[H|[e' H]]]|intros ts e' t H]; discriminate].
      split; [intros n [H|[H|[e' H]]]; discriminate|]. intros ts e' t H Ht. injection H as <- <-.
      pose proof (split_lacks ","%char _ _ Ht) as Hc.
      assert (Hx : forall s cur, all_chars type_char cur = true -> all_chars type_char s = true ->
        forall y, In y (split_from "," 0 cur s) -> all_chars type_char y = true).
      { clear. induction s as [|a s IH]; intros cur Hcur Hs y; cbn [split_from]; [intros [<-|[]]; exact Hcur|].
        cbn [all_chars] in Hs. apply andb_prop in Hs as [Ha Hs]. cbn [String.prefix].
        destruct (Ascii.ascii_dec "," a).
        - replace (String.prefix "" s) with true by (destruct s; reflexivity).
          cbn [String.length Nat.sub]. intros [<-|H]; [exact Hcur|]. now apply (IH "").
        - apply IH; auto. rewrite chars_app, Hcur. cbn. now rewrite Ha. }
      specialize (Hx x "" eq_refl Ex t Ht). clear -Hc Hx. induction t as [|a t IH]; cbn [only_letters]; [exact Logic.I|].
      cbn [all_chars lacks] in *. apply andb_prop in Hc as [Hc1 Hc]. apply andb_prop in Hx as [Hx1 Hx]. split; [|now apply IH].
      unfold plain_letter, type_char in *. cbv zeta in *. repeat rewrite orb_true_iff in Hx1. rewrite !andb_true_iff, !N.leb_le, !N.eqb_eq in Hx1.
      destruct Hx1 as [[[?|?]|?]|E]; auto. exfalso.
      assert (a = ","%char) by (rewrite <- (ascii_N_embedding a), E; reflexivity). subst a. discriminate.
    - split; [intros n' [H|[H|[e H]]]|intros ts e t H]; discriminate. }
  assert (Hp : forall p, (forall n, route_path p = ToSave n \/ route_path p = ToDelete n \/ (exists e, route_path p = ToStream n e) -> lacks "/" n = true)
    /\ (forall ts e t, route_path p = ToTypes ts e -> In t ts -> only_letters t)).
  { intros p. unfold route_path.
    destruct (negb _); [split; [intros n [H|[H|[e H]]]|intros ts e t H]; discriminate|].
    pose proof (fun x => split_lacks "/"%char p x) as Hs. destruct (split_str "/" p) as [|z segs]; [split; [intros n [H|[H|[e H]]]|intros ts e t H]; discriminate|].
    destruct (_ && _).
    - destruct (route_segments (removelast segs)); cbn [slashed]; split; try (intros n [H|[H|[e H]]]; discriminate); intros ts e t H; discriminate.
    - apply Hseg. intros x Hx. apply Hs. now right. }
  unfold route_of. destruct (unescape false raw) as [p|]; [|split; [intros n [H|[H|[e H]]]|intros ts e t H]; discriminate].
  destruct (Hp p) as [H1 H2]. split.
  - intros n [H|[H|[e H]]]; apply H1; injection H as H; eauto.
  - intros ts e t H. injection H as H. eauto.
Qed.

Lemma written_ok l : written l = Records (before_error l).
Proof. unfold written. destruct (consume_spec l (S (length l)) None) as (it & E & _); [lia|]. unfold new_iter. now rewrite E. Qed.
