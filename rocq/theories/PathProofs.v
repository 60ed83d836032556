(** Proofs about PathSpec: the model's unescaping is the spelling, and only that. *)
From Coq Require Import NArith Lia.
From Verif Require Import Base Text PathSpec.
Open Scope string_scope.
Open Scope N_scope.

Lemma hex_value a x : In (a, x) hex_digits <-> unhex a = Some x.
Proof.
  split.
  - intros H. cbn in H. repeat (destruct H as [H|H]; [injection H as <- <-; reflexivity|]). contradiction.
  - destruct a as [[] [] [] [] [] [] [] []]; intros H; vm_compute in H; try discriminate H; injection H as <-; cbn; tauto.
Qed.

Lemma spelled_unescape raw p : spelled raw p -> unescape false raw = Some p.
Proof.
  induction 1 as [|a raw p Ha _ IH|h l x y raw p Hh Hl _ IH]; [reflexivity| |].
  - cbn [unescape]. destruct (Ascii.eqb_spec a "%") as [E|_]; [contradiction|]. now rewrite IH.
  - cbn [unescape]. rewrite Ascii.eqb_refl. apply hex_value in Hh, Hl. now rewrite Hh, Hl, IH.
Qed.

Lemma unescape_spelled : forall raw p, unescape false raw = Some p -> spelled raw p.
Proof.
  assert (G : forall n raw p, (String.length raw <= n)%nat -> unescape false raw = Some p -> spelled raw p).
  { induction n as [|n IH]; intros raw p L H.
    - destruct raw; [|cbn in L; lia]. injection H as <-. constructor.
    - destruct raw as [|a raw]; [injection H as <-; constructor|]. cbn [unescape] in H. cbn [String.length] in L.
      destruct (Ascii.eqb_spec a "%") as [->|Ha].
      + destruct raw as [|h [|l rest]]; try discriminate.
        destruct (unhex h) as [x|] eqn:Eh; [|discriminate]. destruct (unhex l) as [y|] eqn:El; [|discriminate].
        destruct (unescape false rest) as [t|] eqn:Et; [|discriminate]. injection H as <-.
        cbn [String.length] in L. constructor; [now apply hex_value|now apply hex_value|]. apply IH; [lia|exact Et].
      + destruct (unescape false raw) as [t|] eqn:Et; [|discriminate]. injection H as <-. constructor; [exact Ha|]. apply IH; [lia|exact Et]. }
  intros raw p. now apply (G (String.length raw)).
Qed.

Lemma spelled_iff raw p : spelled raw p <-> unescape false raw = Some p.
Proof. split; [apply spelled_unescape|apply unescape_spelled]. Qed.

Lemma bad_escape_refused : forall before after,
  (~ exists h l x y rest, after = String h (String l rest) /\ In (h, x) hex_digits /\ In (l, y) hex_digits) ->
  unescape false (before ++ String "%" after) = None.
Proof.
  intros before after Hb.
  assert (G : forall n before, (String.length before <= n)%nat -> unescape false (before ++ String "%" after) = None).
  { induction n as [|n IH]; intros b L.
    - destruct b; [|cbn in L; lia]. cbn [append unescape]. rewrite Ascii.eqb_refl.
      destruct after as [|h [|l rest]]; try reflexivity.
      destruct (unhex h) as [x|] eqn:Eh; [|reflexivity]. destruct (unhex l) as [y|] eqn:El; [|reflexivity].
      exfalso. apply Hb. exists h, l, x, y, rest. repeat split; now apply hex_value.
    - destruct b as [|a b]; [apply IH; cbn; lia|]. cbn [String.length] in L. cbn [append unescape].
      destruct (Ascii.eqb_spec a "%") as [->|Ha].
      + destruct b as [|h [|l b]].
        * cbn [append]. destruct after as [|l rest]; [reflexivity|]. reflexivity.
        * cbn [append]. destruct (unhex h); reflexivity.
        * cbn [append]. cbn [String.length] in L. rewrite IH by lia. destruct (unhex h), (unhex l); reflexivity.
      + rewrite IH by lia. reflexivity. }
  now apply (G (String.length before)).
Qed.

Lemma bad_escape_iff raw : bad_escape raw <-> unescape false raw = None.
Proof.
  split.
  - intros (b & a & -> & H). now apply bad_escape_refused.
  - revert raw. assert (G : forall n raw, (String.length raw <= n)%nat -> unescape false raw = None -> bad_escape raw).
    { induction n as [|n IH]; intros raw L H.
      - destruct raw; [discriminate|cbn in L; lia].
      - destruct raw as [|a raw]; [discriminate|]. cbn [unescape] in H. cbn [String.length] in L.
        destruct (Ascii.eqb_spec a "%") as [->|Ha].
        + assert (D : unescape false raw = None \/ ~ (exists h l x y rest, raw = String h (String l rest) /\ In (h, x) hex_digits /\ In (l, y) hex_digits)
                      \/ exists h l rest, raw = String h (String l rest) /\ unescape false rest = None).
          { destruct raw as [|h [|l rest]]; [right; left; intros (h & l & x & y & r & E & _); discriminate|right; left; intros (h' & l & x & y & r & E & _); discriminate|].
            destruct (unescape false rest) eqn:Er; [|right; right; eauto].
            right. left. intros (h' & l' & x & y & r & E & Hh & Hl). injection E as <- <- <-.
            apply hex_value in Hh, Hl. rewrite Hh, Hl in H. discriminate. }
          destruct D as [D|[D|(h & l & rest & -> & D)]].
          * destruct (IH raw ltac:(lia) D) as (b & c & -> & Hc). now exists (String "%" b), c.
          * now exists "", raw.
          * cbn [String.length] in L. destruct (IH rest ltac:(lia) D) as (b & c & -> & Hc). now exists (String "%" (String h (String l b))), c.
        + destruct (unescape false raw) eqn:E; [discriminate|]. destruct (IH raw ltac:(lia) E) as (b & c & -> & Hc).
          now exists (String a b), c. }
    intros raw. now apply (G (String.length raw)).
Qed.

(** Every string can be spelled: all bytes escaped. *)
Lemma every_path_spelled : forall p, exists raw, spelled raw p /\ lacks "?" raw = true /\ lacks "#" raw = true /\ lacks " " raw = true.
Proof.
  induction p as [|a p (raw & H & H1 & H2 & H3)]; [exists ""; repeat split; constructor|].
  assert (D : exists h l x y, In (h, x) hex_digits /\ In (l, y) hex_digits /\ ascii_of_N (16 * x + y) = a
    /\ lacks "?" (String h (String l "")) = true /\ lacks "#" (String h (String l "")) = true /\ lacks " " (String h (String l "")) = true).
  { exists (hexdigit (N_of_ascii a / 16)), (hexdigit (N_of_ascii a mod 16)), (N_of_ascii a / 16), (N_of_ascii a mod 16).
    rewrite !hex_value. destruct a as [[] [] [] [] [] [] [] []]; vm_compute; auto 10. }
  destruct D as (h & l & x & y & Hh & Hl & <- & A1 & A2 & A3).
  exists (String "%" (String h (String l raw))). split; [now constructor|].
  cbn [lacks] in *. rewrite !andb_true_r in *. rewrite H1, H2, H3, !andb_true_r.
  repeat split; cbn [Ascii.eqb Bool.eqb negb andb]; assumption.
Qed.

(** strings.Join undoes strings.Split. *)
Lemma join_split_from c s : forall cur, join (String c "") (split_from (String c "") 0 cur s) = cur ++ s.
Proof.
  induction s as [|a s IH]; intros cur; cbn [split_from]; [cbn [join]; now rewrite app_nil_s|].
  cbn [String.prefix]. destruct (Ascii.ascii_dec c a) as [<-|Hne].
  - replace (String.prefix "" s) with true by (destruct s; reflexivity). cbn [String.length Nat.sub].
    specialize (IH ""). cbn [append] in IH. destruct (split_from (String c "") 0 "" s) as [|x l] eqn:E.
    + destruct s; cbn in E; [discriminate|]. destruct (Ascii.ascii_dec c a); [|]; exfalso; revert E.
      * destruct s; discriminate.
      * clear. generalize (String a ""). induction s as [|b s IH]; intros cur; cbn [split_from]; [discriminate|].
        destruct (String.prefix _ _); [discriminate|apply IH].
    + change (join (String c "") (cur :: x :: l)) with (cur ++ String c "" ++ join (String c "") (x :: l)). now rewrite IH.
  - rewrite IH, app_assoc_s. reflexivity.
Qed.
Lemma join_split c s : join (String c "") (split_str (String c "") s) = s.
Proof. apply join_split_from. Qed.
