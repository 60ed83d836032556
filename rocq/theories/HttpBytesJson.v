(** Proofs for C102: the values in JSON texts, and what storing and showing them makes
    of them. *)
From Coq Require Import ZArith.
From Verif Require Import Base DecText Text Json JsonSpec JsonProofs JsonText JsonTextSpec JsonTextProofs JsonGrammar JsonGrammarProofs JsonGrammarReads
  RecordIo RecordIoSpec RecordIoProofs JsonRecordSpec JsonRecordProofs Http HttpBytes HttpSpec HttpBytesSpec.
Import JsonGrammar.
Open Scope string_scope.
Open Scope N_scope.

(** * What a text says is well-formed *)

Lemma is_text_cons u v : scalar u -> is_text v -> is_text (utf8 u ++ v).
Proof. intros Hu (us & Hus & ->). exists (u :: us)%list. split; [now constructor|reflexivity]. Qed.

Lemma said_is_text v raw : string_text v raw -> is_text v.
Proof.
  induction 1 as [|u v raw Hu _ _ _ _ IH|a b v raw Hin _ IH|h u v raw _ Hu _ IH|h1 h2 high low v raw _ _ Hh Hl _ IH|h u v raw _ _ _ _ IH|a v raw _ _ _ IH].
  - exists []. split; [constructor|reflexivity].
  - now apply is_text_cons.
  - assert (E : exists u, u < 128 /\ utf8 u = String b "").
    { exists (N_of_ascii b). cbn in Hin. intuition; match goal with H : (_, _) = (_, _) |- _ => injection H as <- <-; reflexivity end. }
    destruct E as (u & Hu & E). change (String b v) with (String b "" ++ v). rewrite <- E. apply is_text_cons; [left; lia|exact IH].
  - now apply is_text_cons.
  - apply is_text_cons; [right; lia|exact IH].
  - apply is_text_cons; [right; lia|exact IH].
  - apply is_text_cons; [right; lia|exact IH].
Qed.

Lemma max_le {A} (f : A -> N) l M : Forall (fun x => f x <= M) l -> fold_right N.max 0 (map f l) <= M.
Proof. induction 1 as [|x l H _ IH]; cbn; lia. Qed.

Lemma text_sound : (forall d j t, text_of d j t -> sound j /\ nesting j <= d)
  /\ (forall d l t, items_text d l t -> Forall (fun x => sound x /\ nesting x <= d) l)
  /\ (forall d l t, members_text d l t -> Forall (fun p => is_text (fst p) /\ sound (snd p) /\ nesting (snd p) <= d) l).
Proof.
  apply (text_mutual (fun d j t => sound j /\ nesting j <= d) (fun d l t => Forall (fun x => sound x /\ nesting x <= d) l)
           (fun d l t => Forall (fun p => is_text (fst p) /\ sound (snd p) /\ nesting (snd p) <= d) l)).
  - intros d. split; [constructor|cbn; lia].
  - intros d. split; [constructor|cbn; lia].
  - intros d. split; [constructor|cbn; lia].
  - intros d n Hn. split; [now constructor|cbn; lia].
  - intros d v raw H. split; [constructor; eapply said_is_text; exact H|cbn; lia].
  - intros d w Hw Hd. split; [constructor; intros x []|cbn; lia].
  - intros d l body Hd _ H. split.
    + constructor. intros x Hx. rewrite Forall_forall in H. now apply H.
    + cbn [nesting]. assert (fold_right N.max 0 (map nesting l) <= d - 1); [|lia]. apply max_le. apply (Forall_impl _ (fun _ H => proj2 H) H).
  - intros d w Hw Hd. split; [constructor; intros k x []|cbn; lia].
  - intros d l body Hd _ H. split.
    + constructor. intros k x Hx. rewrite Forall_forall in H. pose proof (H _ Hx) as (H1 & H2 & _). auto.
    + cbn [nesting]. assert (fold_right N.max 0 (map (fun p : string * json => nesting (snd p)) l) <= d - 1); [|lia]. apply max_le.
      apply (Forall_impl _ (fun _ H => proj2 (proj2 H)) H).
  - intros d x t w1 w2 _ _ _ H. now constructor.
  - intros d x t w1 w2 l body _ _ _ H _ IH. now constructor.
  - intros d k raw x t w1 w2 w3 w4 _ _ _ _ Hk _ H. constructor; [|constructor]. split; [eapply said_is_text; exact Hk|exact H].
  - intros d k raw x t w1 w2 w3 w4 l body _ _ _ _ Hk _ H _ IH. constructor; [|exact IH]. split; [eapply said_is_text; exact Hk|exact H].
Qed.

(** * Bodies *)

Lemma carries_body body b : carries body b -> match read_value body with Some (j, _) => Some j | None => None end = b.
Proof.
  destruct b as [j|]; cbn [carries].
  - intros (w & t & rest & -> & Hw & Ht & Hn). rewrite (read_reads w t j rest Hw Ht); [reflexivity|].
    intros E. destruct j; try discriminate. now apply (Hn n).
  - intros H. destruct (read_value body) as [[j rest]|] eqn:E; [|reflexivity].
    destruct (read_says _ _ _ E) as (w & t & -> & Hw & Ht). exfalso. exact (H w t rest j eq_refl Hw Ht).
Qed.

Lemma nesting_item x l : In x l -> nesting x + 1 <= nesting (JArr l).
Proof. intros H. cbn [nesting]. induction l as [|y l IH]; [destruct H|]. cbn [map fold_right]. destruct H as [->|H]; [lia|]. specialize (IH H). lia. Qed.
Lemma nesting_member k x l : In (k, x) l -> nesting x + 1 <= nesting (JObj l).
Proof. intros H. cbn [nesting]. induction l as [|y l IH]; [destruct H|]. cbn [map fold_right]. destruct H as [->|H]; [cbn [snd]; lia|]. specialize (IH H). lia. Qed.

(** An event that was posted is well-formed. *)
Definition fit (j : json) : Prop := sound j /\ nesting j + 2 <= 10000.
Definition fit_event (e : client_event) : Prop :=
  is_text (ce_atype e) /\ is_text (ce_aid e) /\ is_text (ce_etype e) /\ fit (ce_data e) /\ fit (ce_meta e).

Lemma posted_fit body l es : begins_with body (JArr l) -> Forall2 describes l es -> Forall fit_event es.
Proof.
  intros (w & t & rest & _ & _ & Ht & _) H. apply (proj1 text_sound) in Ht as [Hs Hn]. inversion Hs as [| | | |l0 Hl|]; subst.
  assert (G : forall x, In x l -> sound x /\ nesting x + 1 <= 10000).
  { intros x Hx. split; [now apply Hl|]. pose proof (nesting_item x l Hx). lia. }
  clear - H G. induction H as [|j e l es (ms & -> & Hp) _ IH]; constructor; [|apply IH; intros; apply G; now right].
  destruct (G _ (or_introl eq_refl)) as [Hs Hn]. inversion Hs as [| | | | |ms0 Hm]; subst.
  assert (M : forall k x, In (k, x) [("aggregateType", JStr (ce_atype e)); ("aggregateID", JStr (ce_aid e)); ("eventType", JStr (ce_etype e));
      ("data", ce_data e); ("metadata", ce_meta e)] -> sound x /\ nesting x + 2 <= 10000).
  { intros k x Hin. apply (Permutation.Permutation_in _ (Permutation.Permutation_sym Hp)) in Hin. split; [eapply Hm; exact Hin|].
    pose proof (nesting_member k x ms Hin). lia. }
  cbn [In] in M. unfold fit_event, fit.
  destruct (M "aggregateType" (JStr (ce_atype e))) as [M1 _]; [auto|]. destruct (M "aggregateID" (JStr (ce_aid e))) as [M2 _]; [auto|].
  destruct (M "eventType" (JStr (ce_etype e))) as [M3 _]; [auto|]. inversion M1; inversion M2; inversion M3; subst.
  pose proof (M "data" (ce_data e)) as M4. pose proof (M "metadata" (ce_meta e)) as M5. intuition.
Qed.

(** * Stored and shown *)

Section Values.
Variable of_lit : string -> float.
Variable show : float -> num.
Let back (n : num) : num := show (float_of of_lit n).
Hypothesis Hback : forall n, number n -> number (back n).

Fixpoint freeze (v : goval) : goval :=
  match v with
  | GFloat f => GNumber (show f)
  | GSlice l => GSlice (map freeze l)
  | GMap l => GMap (map (fun p => (fst p, freeze (snd p))) l)
  | x => x
  end.

Lemma encode_freeze v : encode show (freeze v) = encode show v.
Proof.
  induction v as [| | | | |l IH|l IH] using goval_ind'; try reflexivity; cbn [freeze encode]; f_equal; rewrite map_map.
  - induction IH as [|x l E _ IHl]; cbn; congruence.
  - induction IH as [|x l E _ IHl]; [reflexivity|]. cbn [map fst snd]. rewrite E. f_equal. exact IHl.
Qed.
Lemma freeze_nil v : freeze v = GNil -> v = GNil.
Proof. destruct v; cbn; congruence. Qed.

Lemma members_in l : forall acc k v, In (k, v) (JsonProofs.members of_lit false acc l) ->
  In (k, v) acc \/ exists j, In (k, j) l /\ v = decode of_lit false j.
Proof.
  induction l as [|[k0 j0] l IH]; intros acc k v H; cbn [JsonProofs.members] in H; [now left|].
  apply IH in H as [H|(j & H & ->)].
  - apply put_keys in H as [[-> ->]|H]; [right; exists j0; split; [now left|reflexivity]|now left].
  - right. exists j. split; [now right|reflexivity].
Qed.

Lemma keys_map {A B} (f : A -> B) (l : list (string * A)) : keys_sorted l -> keys_sorted (map (fun p => (fst p, f (snd p))) l).
Proof.
  induction l as [|[k v] l IH]; intros H; [exact Logic.I|]. destruct l as [|[k' v'] l]; [exact Logic.I|].
  destruct H as [H1 H2]. split; [exact H1|]. exact (IH H2).
Qed.

Lemma decode_carried j : sound j -> carried (freeze (decode of_lit false j)).
Proof.
  induction j as [|b|n|s|l IH|ms IH] using json_ind'; intros H; inversion H; subst.
  - constructor.
  - constructor.
  - constructor. now apply Hback.
  - now constructor.
  - cbn [decode freeze]. constructor. intros x Hx. rewrite map_map in Hx. apply in_map_iff in Hx as (y & <- & Hy). rewrite Forall_forall in IH. auto.
  - rewrite decode_obj. cbn [freeze]. constructor.
    + apply (keys_map freeze). apply members_sorted. exact Logic.I.
    + intros k x Hx. apply in_map_iff in Hx as ((k' & v) & E & Hin). injection E as -> <-. cbn [fst snd] in *.
      apply members_in in Hin as [[]|(j & Hj & ->)]. rewrite Forall_forall in IH. split; [|apply (IH _ Hj)]; eapply H1; eassumption.
Qed.

Lemma freeze_levels v : levels (freeze v) = levels v.
Proof. rewrite <- (encode_nesting show), encode_freeze. apply encode_nesting. Qed.

Lemma decode_levels j : levels (decode of_lit false j) <= nesting j.
Proof.
  induction j as [|b|n|s|l IH|ms IH] using json_ind'; try (cbn; lia).
  - cbn [decode levels nesting]. rewrite map_map. assert (fold_right N.max 0 (map (fun x => levels (decode of_lit false x)) l) <= fold_right N.max 0 (map nesting l)); [|lia].
    induction IH as [|x l H _ IHl]; cbn [map fold_right]; lia.
  - rewrite decode_obj. assert (levels (GMap (JsonProofs.members of_lit false [] ms)) <= 1 + (nesting (JObj ms) - 1)).
    { cbn [levels]. apply N.add_le_mono_l. apply (max_le (fun p => levels (snd p))). apply Forall_forall. intros [k v] Hin.
      apply members_in in Hin as [[]|(j & Hj & ->)]. cbn [snd]. rewrite Forall_forall in IH. pose proof (IH _ Hj) as K. cbn [snd] in K.
      pose proof (nesting_member _ _ _ Hj). lia. }
    assert (1 <= nesting (JObj ms)) by (cbn [nesting]; lia). lia.
Qed.

Lemma decode_echoes j : echoes back j (encode show (decode of_lit false j)).
Proof.
  induction j as [|b|n|s|l IH|ms IH] using json_ind'; [constructor|constructor|apply echo_num|constructor| |].
  - cbn [decode encode]. constructor.
    + now rewrite !map_length.
    + intros i x y Hx Hy. rewrite map_map, nth_error_map, Hx in Hy. injection Hy as <-. rewrite Forall_forall in IH. apply IH. eapply nth_error_In; eassumption.
  - rewrite decode_obj. cbn [encode]. constructor.
    + apply (keys_map (encode show)). apply members_sorted. exact Logic.I.
    + intros k. rewrite member_map, members_find by exact Logic.I. destruct (last_member k ms); cbn; split; congruence.
    + intros k x y Hx Hy. rewrite member_map, members_find in Hy by exact Logic.I. rewrite Hx in Hy. injection Hy as <-.
      rewrite Forall_forall in IH. apply (IH (k, x)). now apply last_member_in.
Qed.

Lemma stored_reads j : fit j -> read_value (text_of_value show (decode of_lit false j)) = Some (encode show (decode of_lit false j), "")
  /\ exact (encode show (decode of_lit false j)) = freeze (decode of_lit false j).
Proof.
  intros [Hs Hn]. pose proof (decode_carried j Hs) as Hc. split.
  - unfold text_of_value. rewrite <- encode_freeze. rewrite <- (app_nil_s (JsonText.print _)). apply read_back.
    + now apply carried_sound.
    + rewrite encode_nesting, freeze_levels. pose proof (decode_levels j). change max_nesting with 10000. lia.
    + intros _. exact Logic.I.
  - rewrite <- encode_freeze. now apply exact_back.
Qed.
End Values.
