(** Proofs about key stores and the encryption engine. *)
From Coq Require Import PeanoNat.
From Verif Require Import Base Prog KeyStores KeySpec Crypto.
Open Scope string_scope.
Open Scope nat_scope.

(** * Tables *)

Lemma entry_enter {X} s (x : X) l t : entry t (enter s x l) = if String.eqb s t then Some x else entry t l.
Proof.
  induction l as [|[u y] l IH]; cbn.
  - reflexivity.
  - destruct (String.eqb_spec u s) as [->|N]; cbn.
    + destruct (String.eqb s t); reflexivity.
    + destruct (String.eqb_spec u t) as [->|N'].
      * destruct (String.eqb_spec s t); [congruence|reflexivity].
      * exact IH.
Qed.
Lemma entry_same {X} s (x : X) l : entry s (enter s x l) = Some x.
Proof. rewrite entry_enter, String.eqb_refl. reflexivity. Qed.
Lemma entry_other {X} s (x : X) l t : s <> t -> entry t (enter s x l) = entry t l.
Proof. intros H. rewrite entry_enter. destruct (String.eqb_spec s t); [congruence|reflexivity]. Qed.

(** * Traces *)

Lemma nth_app_old {X} (l : list X) x i y : i < length l -> nth_error (l ++ [x]) i = Some y <-> nth_error l i = Some y.
Proof. intros H. rewrite nth_error_app1 by exact H. reflexivity. Qed.
Lemma nth_app_cases {X} (l : list X) x i y : nth_error (l ++ [x]) i = Some y ->
  (i < length l /\ nth_error l i = Some y) \/ (i = length l /\ x = y).
Proof.
  intros H. assert (L : i < length (l ++ [x])) by (apply nth_error_Some; congruence). rewrite app_length in L. cbn in L.
  destruct (Nat.lt_ge_cases i (length l)) as [A|A].
  - left. rewrite nth_error_app1 in H by exact A. auto.
  - right. assert (i = length l) by lia. subst. rewrite nth_error_app2, Nat.sub_diag in H by lia. cbn in H. split; [reflexivity|congruence].
Qed.
Lemma nth_in_range {X} (l : list X) i y : nth_error l i = Some y -> i < length l.
Proof. intros H. apply nth_error_Some. congruence. Qed.
Lemma nth_app_keep {X} (l : list X) x i y : nth_error l i = Some y -> nth_error (l ++ [x]) i = Some y.
Proof. intros H. rewrite nth_error_app1; [exact H|eapply nth_in_range; exact H]. Qed.
Lemma nth_app_last {X} (l : list X) x : nth_error (l ++ [x]) (length l) = Some x.
Proof. rewrite nth_error_app2, Nat.sub_diag by lia. reflexivity. Qed.

Section Ind.
Context {S Q A F O B : Type}.
Variable server : F -> S -> Q -> S * A.
Variable code : O -> prog Q A B.
Notation world := (world S Q A O B).

Lemma thread_in n (l : list (nat * (O * prog Q A B))) x : thread n l = Some x -> In (n, x) l.
Proof.
  induction l as [|[m y] l IH]; cbn; [discriminate|]. destruct (Nat.eqb_spec m n) as [->|]; [intros [= ->]; left; reflexivity|right; auto].
Qed.
Lemma without_in n (l : list (nat * (O * prog Q A B))) x : In x (without n l) -> In x l /\ fst x <> n.
Proof. intros H. apply filter_In in H. destruct H as [H1 H2]. split; [exact H1|]. apply negb_true_iff, Nat.eqb_neq in H2. exact H2. Qed.

(** An invariant of the state and the trace ([I]) and one of each running call ([J]). *)
Section Inv.
Variable I : S -> list (seen O B) -> Prop.
Variable J : S -> list (seen O B) -> nat -> O -> prog Q A B -> Prop.
Definition holds (w : world) : Prop :=
  I (state w) (trace w)
  /\ forall n o p, In (n, (o, p)) (running w) -> nth_error (trace w) n = Some (Began o) /\ J (state w) (trace w) n o p.

Hypothesis Hbegin : forall s tr o, I s tr -> I s (tr ++ [Began o]).
Hypothesis Hstart : forall s tr o q k, I s tr -> code o = Ask q k -> J s (tr ++ [Began o]) (length tr) o (code o).
Hypothesis Hret : forall s tr o b, I s tr -> code o = Ret b -> I s (tr ++ [Began o; Done (length tr) o b]).
Hypothesis Hkeep_begin : forall s tr n o p o', I s tr -> J s tr n o p -> nth_error tr n = Some (Began o) -> J s (tr ++ [Began o']) n o p.
Hypothesis Hkeep_ret : forall s tr n o p o' b, I s tr -> J s tr n o p -> nth_error tr n = Some (Began o) -> code o' = Ret b -> J s (tr ++ [Began o'; Done (length tr) o' b]) n o p.
Hypothesis Hstep : forall f s tr n o q k s' a, I s tr -> J s tr n o (Ask q k) -> nth_error tr n = Some (Began o) -> server f s q = (s', a) ->
  match k a with
  | Ret b => I s' (tr ++ [Done n o b])
  | p => I s' tr /\ J s' tr n o p
  end.
Hypothesis Hkeep_step : forall f s tr n o q k s' a n' o' p', I s tr -> J s tr n o (Ask q k) -> nth_error tr n = Some (Began o) -> server f s q = (s', a) ->
  J s tr n' o' p' -> nth_error tr n' = Some (Began o') -> n' <> n ->
  match k a with
  | Ret b => J s' (tr ++ [Done n o b]) n' o' p'
  | _ => J s' tr n' o' p'
  end.

Lemma holds_move w m : holds w -> holds (do_move server code w m).
Proof.
  intros [HI HJ]. destruct m as [o|n f]; cbn [do_move].
  - unfold settle. destruct (code o) as [b|q k] eqn:E; split; cbn [state running trace].
    + rewrite <- app_assoc. cbn [app]. apply Hret; assumption.
    + intros n' o' p' Hin. destruct (HJ _ _ _ Hin) as [H1 H2]. rewrite <- app_assoc. cbn [app]. split.
      * rewrite nth_error_app1; [exact H1|eapply nth_in_range; exact H1].
      * apply Hkeep_ret; assumption.
    + apply Hbegin, HI.
    + intros n' o' p' [[= <- <- <-]|Hin].
      * split; [apply nth_app_last|]. rewrite <- E. eapply Hstart; eassumption.
      * destruct (HJ _ _ _ Hin) as [H1 H2]. split; [apply nth_app_keep; exact H1|]. apply Hkeep_begin; assumption.
  - destruct (thread n (running w)) as [[o [b|q k]]|] eqn:T; [split; assumption| |split; assumption].
    apply thread_in in T. destruct (HJ _ _ _ T) as [HT1 HT2].
    destruct (server f (state w) q) as [s' a] eqn:E.
    pose proof (Hstep _ _ _ _ _ _ _ _ _ HI HT2 HT1 E) as St.
    assert (Ks : forall n' o' p', In (n', (o', p')) (without n (running w)) ->
      nth_error (trace w) n' = Some (Began o') /\ match k a with Ret b => J s' (trace w ++ [Done n o b]) n' o' p' | _ => J s' (trace w) n' o' p' end).
    { intros n' o' p' Hin. apply without_in in Hin. destruct Hin as [Hin Hne]. cbn in Hne. destruct (HJ _ _ _ Hin) as [H1 H2].
      split; [exact H1|]. eapply Hkeep_step; eassumption. }
    unfold settle. destruct (k a) as [b|q' k'] eqn:Ek; split; cbn [state running trace].
    + exact St.
    + intros n' o' p' Hin. destruct (Ks _ _ _ Hin) as [H1 H2]. split; [apply nth_app_keep; exact H1|exact H2].
    + apply St.
    + intros n' o' p' [[= <- <- <-]|Hin]; [split; [exact HT1|apply St]|]. exact (Ks _ _ _ Hin).
Qed.
Lemma holds_run w ms : holds w -> holds (run_moves server code w ms).
Proof. revert w. induction ms as [|m ms IH]; intros w H; [exact H|]. cbn. apply IH, holds_move, H. Qed.
Lemma holds_fresh s : I s [] -> holds (fresh s).
Proof. intros H. split; [exact H|]. intros n o p []. Qed.
End Inv.
End Ind.

(** * Stores that keep track of the fate of each subject *)

Definition report (f : option (option string)) : kout :=
  match f with None => Got "" (Some NotFound) | Some None => Got "" (Some WasDeleted) | Some (Some k) => Got k None end.

Record lawful {S F : Type} (down always : Prop) (server : F -> S -> kop -> S * kout) (fate : S -> string -> option (option string)) : Prop := {
  law_get : forall f s x s' r, server f s (Get x) = (s', r) ->
    (forall y, fate s' y = fate s y) /\ (r = report (fate s x) \/ down /\ r = Got "" (Some Other));
  law_set : forall f s x k s' r, server f s (Set_ x k) = (s', r) ->
    (forall y, y <> x -> fate s' y = fate s y)
    /\ (r = Did None -> fate s x = None /\ fate s' x = Some (Some k))
    /\ (fate s' x = fate s x \/ fate s x = None /\ fate s' x = Some (Some k))
    /\ exists e, r = Did e;
  law_del : forall f s x s' r, server f s (Delete x) = (s', r) ->
    (forall y, y <> x -> fate s' y = fate s y)
    /\ (fate s' x = fate s x \/ fate s' x = Some None)
    /\ (r = Did None -> always \/ fate s x <> None -> fate s' x = Some None)
    /\ exists e, r = Did e
}.

Section Lawful.
Context {S F : Type}.
Variables down always : Prop.
Variable server : F -> S -> kop -> S * kout.
Variable fate : S -> string -> option (option string).
Hypothesis Hlaw : lawful down always server fate.

Lemma law_gone f s q s' r x : server f s q = (s', r) -> fate s x = Some None -> fate s' x = Some None.
Proof.
  intros E G. destruct q as [y|y k|y].
  - rewrite (proj1 (law_get _ _ _ _ Hlaw _ _ _ _ _ E)). exact G.
  - destruct (law_set _ _ _ _ Hlaw _ _ _ _ _ _ E) as (H1 & _ & H3 & _).
    destruct (string_dec x y) as [->|N]; [|rewrite H1 by exact N; exact G]. destruct H3 as [->|[H _]]; [exact G|congruence].
  - destruct (law_del _ _ _ _ Hlaw _ _ _ _ _ E) as (H1 & H2 & _).
    destruct (string_dec x y) as [->|N]; [|rewrite H1 by exact N; exact G]. destruct H2 as [->|H]; [exact G|exact H].
Qed.
Lemma law_known f s q s' r x : server f s q = (s', r) -> fate s x <> None -> fate s' x <> None.
Proof.
  intros E G. destruct q as [y|y k|y].
  - rewrite (proj1 (law_get _ _ _ _ Hlaw _ _ _ _ _ E)). exact G.
  - destruct (law_set _ _ _ _ Hlaw _ _ _ _ _ _ E) as (H1 & _ & H3 & _).
    destruct (string_dec x y) as [->|N]; [|rewrite H1 by exact N; exact G]. destruct H3 as [->|[H _]]; [exact G|congruence].
  - destruct (law_del _ _ _ _ Hlaw _ _ _ _ _ E) as (H1 & H2 & _).
    destruct (string_dec x y) as [->|N]; [|rewrite H1 by exact N; exact G]. destruct H2 as [->|H]; [exact G|congruence].
Qed.
(** A key once there stays or is deleted, the latter by a Delete of its subject. *)
Lemma law_key f s q s' r x k : server f s q = (s', r) -> fate s x = Some (Some k) ->
  fate s' x = Some (Some k) \/ fate s' x = Some None /\ q = Delete x.
Proof.
  intros E G. destruct q as [y|y k'|y].
  - left. rewrite (proj1 (law_get _ _ _ _ Hlaw _ _ _ _ _ E)). exact G.
  - left. destruct (law_set _ _ _ _ Hlaw _ _ _ _ _ _ E) as (H1 & _ & H3 & _).
    destruct (string_dec x y) as [->|N]; [|rewrite H1 by exact N; exact G]. destruct H3 as [->|[H _]]; [exact G|congruence].
  - destruct (law_del _ _ _ _ Hlaw _ _ _ _ _ E) as (H1 & H2 & _).
    destruct (string_dec x y) as [->|N]; [|left; rewrite H1 by exact N; exact G]. destruct H2 as [->|H]; [left; exact G|right; auto].
Qed.
(** How a fate comes about. *)
Lemma law_origin f s q s' r x : server f s q = (s', r) -> fate s' x = fate s x \/
  (fate s x = None /\ exists k, q = Set_ x k /\ fate s' x = Some (Some k)) \/ q = Delete x /\ fate s' x = Some None.
Proof.
  intros E. destruct q as [y|y k|y].
  - left. apply (proj1 (law_get _ _ _ _ Hlaw _ _ _ _ _ E)).
  - destruct (law_set _ _ _ _ Hlaw _ _ _ _ _ _ E) as (H1 & _ & H3 & _).
    destruct (string_dec x y) as [->|N]; [|left; apply H1; exact N]. destruct H3 as [H|[H H']]; [left; exact H|right; left; eauto].
  - destruct (law_del _ _ _ _ Hlaw _ _ _ _ _ E) as (H1 & H2 & _).
    destruct (string_dec x y) as [->|N]; [|left; apply H1; exact N]. destruct H2 as [H|H]; [left; exact H|right; right; auto].
Qed.

(** ** The store itself *)

Definition store_inv (s : S) (tr : list (seen kop kout)) : Prop :=
  (forall i from x k, ended tr i from (Set_ x k) (Did None) ->
      fate s x = Some (Some k) \/ fate s x = Some None /\ exists m, begun tr m (Delete x))
  /\ (forall i from x, ended tr i from (Delete x) (Did None) -> always \/ known_before tr from x -> fate s x = Some None)
  /\ (forall x k, fate s x = Some (Some k) -> exists m, begun tr m (Set_ x k))
  /\ (forall i from q r, ended tr i from q r -> from < i)
  /\ deletion_is_permanent down always tr
  /\ keys_are_kept down tr
  /\ keys_come_from_sets tr.

Lemma known_app tr e i s : known_before tr i s -> known_before (tr ++ [e]) i s.
Proof. intros (j & from & k & H1 & H2). exists j, from, k. split; [exact H1|]. apply nth_app_keep. exact H2. Qed.
Lemma known_app_inv tr e i s : i <= length tr -> known_before (tr ++ [e]) i s -> known_before tr i s.
Proof.
  intros Hi (j & from & k & H1 & H2). exists j, from, k. split; [exact H1|].
  destruct (nth_app_cases _ _ _ _ H2) as [[_ H]|[H _]]; [exact H|lia].
Qed.

Lemma store_begin s tr o : store_inv s tr -> store_inv s (tr ++ [Began o]).
Proof.
  intros (H1 & H2 & H3 & H4 & H5 & H6 & H7).
  assert (E : forall i from q r, ended (tr ++ [Began o]) i from q r -> ended tr i from q r).
  { intros i from q r H. destruct (nth_app_cases _ _ _ _ H) as [[_ H']|[_ H']]; [exact H'|discriminate]. }
  split; [|split; [|split; [|split; [|split; [|split]]]]].
  - intros i from x k H. destruct (H1 _ _ _ _ (E _ _ _ _ H)) as [F1|[F1 [m Hm]]]; [left; exact F1|right].
    split; [exact F1|]. exists m. apply nth_app_keep. exact Hm.
  - intros i from x H K. apply (H2 i from x (E _ _ _ _ H)). destruct K as [K|K]; [left; exact K|right].
    apply E in H. apply known_app_inv in K; [exact K|]. apply H4 in H as L. apply nth_in_range in H. lia.
  - intros x k H. destruct (H3 _ _ H) as [m Hm]. exists m. apply nth_app_keep. exact Hm.
  - intros i from q r H. exact (H4 _ _ _ _ (E _ _ _ _ H)).
  - intros i from x H K. apply E in H. assert (K' : always \/ known_before tr from x).
    { destruct K as [K|K]; [left; exact K|right]. apply known_app_inv in K; [exact K|]. apply H4 in H as L. apply nth_in_range in H. lia. }
    intros j fj q r L He. apply E in He. exact (H5 _ _ _ H K' _ _ _ _ L He).
  - intros i j fi fj x k r Hi Hj L N. apply E in Hi, Hj. apply (H6 i j fi fj x k r Hi Hj L).
    intros m Hm B. apply (N m Hm). apply nth_app_keep. exact B.
  - intros j from x k H. apply E in H. destruct (H7 _ _ _ _ H) as (i & L & B). exists i. split; [exact L|]. apply nth_app_keep. exact B.
Qed.

Lemma store_step f s tr n q s' r : store_inv s tr -> nth_error tr n = Some (Began q) -> server f s q = (s', r) -> store_inv s' (tr ++ [Done n q r]).
Proof.
  intros (H1 & H2 & H3 & H4 & H5 & H6 & H7) Hn E. pose proof (nth_in_range _ _ _ Hn) as Ln.
  assert (E' : forall i from q' r', ended (tr ++ [Done n q r]) i from q' r' ->
     ended tr i from q' r' \/ i = length tr /\ from = n /\ q' = q /\ r' = r).
  { intros i from q' r' H. destruct (nth_app_cases _ _ _ _ H) as [[_ H']|[-> H']]; [left; exact H'|right].
    injection H' as -> -> ->. auto. }
  assert (G : forall i from x, ended tr i from (Delete x) (Did None) -> always \/ known_before (tr ++ [Done n q r]) from x -> always \/ known_before tr from x).
  { intros i from x H K. destruct K as [K|K]; [left; exact K|right].
    apply known_app_inv in K; [exact K|]. apply H4 in H as L. apply nth_in_range in H. lia. }
  split; [|split; [|split; [|split; [|split; [|split]]]]].
  - intros i from x k H. destruct (E' _ _ _ _ H) as [H'|(-> & -> & <- & <-)].
    + destruct (H1 _ _ _ _ H') as [F1|[F1 [m Hm]]].
      * destruct (law_key _ _ _ _ _ _ _ E F1) as [F2|[F2 ->]]; [left; exact F2|right]. split; [exact F2|]. exists n. apply nth_app_keep. exact Hn.
      * right. split; [exact (law_gone _ _ _ _ _ _ E F1)|]. exists m. apply nth_app_keep. exact Hm.
    + left. destruct (law_set _ _ _ _ Hlaw _ _ _ _ _ _ E) as (_ & S2 & _). apply S2. reflexivity.
  - intros i from x H K. destruct (E' _ _ _ _ H) as [H'|(-> & -> & <- & <-)].
    + exact (law_gone _ _ _ _ _ _ E (H2 _ _ _ H' (G _ _ _ H' K))).
    + destruct (law_del _ _ _ _ Hlaw _ _ _ _ _ E) as (_ & _ & D & _). apply D; [reflexivity|].
      destruct K as [K|K]; [left; exact K|right]. apply known_app_inv in K; [|lia]. destruct K as (j & fj & k & _ & K).
      destruct (H1 _ _ _ _ K) as [F1|[F1 _]]; congruence.
  - intros x k H. destruct (law_origin _ _ _ _ _ x E) as [O|[(_ & k' & -> & O)|(-> & O)]].
    + rewrite O in H. destruct (H3 _ _ H) as [m Hm]. exists m. apply nth_app_keep. exact Hm.
    + rewrite O in H. injection H as ->. exists n. apply nth_app_keep. exact Hn.
    + congruence.
  - intros i from q' r' H. destruct (E' _ _ _ _ H) as [H'|(-> & -> & _)]; [exact (H4 _ _ _ _ H')|exact Ln].
  - intros i from x H K j fj q' r' L He. destruct (E' _ _ _ _ He) as [He'|(-> & -> & -> & ->)].
    + assert (H' : ended tr i from (Delete x) (Did None)).
      { destruct (E' _ _ _ _ H) as [H'|(-> & _)]; [exact H'|]. apply H4 in He' as L'. apply nth_in_range in He'. lia. }
      exact (H5 _ _ _ H' (G _ _ _ H' K) _ _ _ _ L He').
    + assert (H' : ended tr i from (Delete x) (Did None)) by (destruct (E' _ _ _ _ H) as [H'|(-> & _)]; [exact H'|lia]).
      pose proof (H2 _ _ _ H' (G _ _ _ H' K)) as F1. split.
      * intros ->. destruct (law_get _ _ _ _ Hlaw _ _ _ _ _ E) as [_ [->|R]]; [left; rewrite F1; reflexivity|right; exact R].
      * intros k -> ->. destruct (law_set _ _ _ _ Hlaw _ _ _ _ _ _ E) as (_ & S2 & _). destruct (S2 eq_refl). congruence.
  - intros i j fi fj x k r' Hi Hj L N.
    assert (Hi' : ended tr i fi (Set_ x k) (Did None)).
    { destruct (E' _ _ _ _ Hi) as [H|(-> & _)]; [exact H|]. apply nth_in_range in Hj. rewrite app_length in Hj. cbn in Hj. lia. }
    destruct (E' _ _ _ _ Hj) as [Hj'|(-> & -> & <- & ->)].
    + apply (H6 i j fi fj x k r' Hi' Hj' L). intros m Hm B. apply (N m Hm). apply nth_app_keep. exact B.
    + destruct (H1 _ _ _ _ Hi') as [F1|[_ [m Hm]]].
      * destruct (law_get _ _ _ _ Hlaw _ _ _ _ _ E) as [_ [->|R]]; [left; rewrite F1; reflexivity|right; exact R].
      * exfalso. apply (N m); [apply nth_in_range in Hm; exact Hm|apply nth_app_keep; exact Hm].
  - intros j from x k H. destruct (E' _ _ _ _ H) as [H'|(-> & -> & <- & <-)].
    + destruct (H7 _ _ _ _ H') as (i & L & B). exists i. split; [exact L|apply nth_app_keep; exact B].
    + destruct (law_get _ _ _ _ Hlaw _ _ _ _ _ E) as [_ [R|[_ R]]]; [|discriminate].
      destruct (fate s x) as [[k'|]|] eqn:Ef; cbn in R; try discriminate. injection R as <-.
      destruct (H3 _ _ Ef) as [m Hm]. exists m. split; [apply nth_in_range in Hm; exact Hm|apply nth_app_keep; exact Hm].
Qed.

Lemma store_holds s0 ms : (forall x, fate s0 x = None) -> 
  store_inv (state (run_moves server mem_call (fresh s0) ms)) (trace (run_moves server mem_call (fresh s0) ms)).
Proof.
  intros H0.
  assert (W : holds store_inv (fun _ _ _ o p => p = mem_call o) (run_moves server mem_call (fresh s0) ms)).
  { apply holds_run.
    - intros. apply store_begin. assumption.
    - intros; reflexivity.
    - intros s tr o b _ H. discriminate.
    - intros. assumption.
    - intros. discriminate.
    - intros f s tr n o q k s' a HI HJ Hn E. injection HJ as -> ->. apply (store_step _ _ _ _ _ _ _ HI Hn E).
    - intros f s tr n o q k s' a n' o' p' HI HJ Hn E HJ' Hn' N. injection HJ as -> ->. exact HJ'.
    - apply holds_fresh. unfold store_inv, deletion_is_permanent, keys_are_kept, keys_come_from_sets, ended.
      split; [|split; [|split; [|split; [|split; [|split]]]]].
      + intros i from x k H. destruct i; discriminate H.
      + intros i from x H. destruct i; discriminate H.
      + intros x k H. rewrite H0 in H. discriminate.
      + intros i from q r H. destruct i; discriminate H.
      + intros i from x H. destruct i; discriminate H.
      + intros i j fi fj x k r H. destruct i; discriminate H.
      + intros j from x k H. destruct j; discriminate H. }
  apply W.
Qed.

(** ** The engine on top of the store *)
Section Engine.
Variable enc : string -> option string -> string -> answer.
Variable dec : string -> string -> answer.
Hypothesis Hcipher : forall k n p c, enc k n p = Text c -> dec k c = Text p.

Definition phase2 (x text bytes : string) (nonce : option string) : prog kop kout eout :=
  Ask (Set_ x (Encodings.base64 true bytes)) (fun r' =>
    match error_of r' with
    | None => Ret (Answer (enc (Encodings.base64 true bytes) nonce text))
    | Some e => Ret (KeyError e)
    end).

Definition one_key (s : S) (tr : list (seen eop eout)) : Prop :=
  forall x, exists k,
    (forall i from text random nonce a, ended tr i from (Encrypt x text random nonce) (Answer a) -> a = enc k nonce text /\ fate s x <> None)
    /\ (forall k', fate s x = Some (Some k') -> k' = k).

Definition eng_inv (s : S) (tr : list (seen eop eout)) : Prop :=
  one_key s tr
  /\ (forall x, fate s x = Some None -> exists m, begun tr m (Deleting x))
  /\ (forall i from x, ended tr i from (Deleting x) (Deletion None) -> always \/ encrypted_before tr from x -> fate s x = Some None)
  /\ (forall i from o r, ended tr i from o r -> from < i)
  /\ engine_honours_deletion down always tr
  /\ decrypts_until_deleted down tr.

Definition eng_run (s : S) (tr : list (seen eop eout)) (n : nat) (o : eop) (p : prog kop kout eout) : Prop :=
  p = engine enc dec o
  \/ exists x text bytes nonce, o = Encrypt x text (Some bytes) nonce /\ p = phase2 x text bytes nonce
     /\ forall i from, i < n -> ended tr i from (Deleting x) (Deletion None) -> always \/ encrypted_before tr from x -> False.

Lemma enc_before_app tr e i s : encrypted_before tr i s -> encrypted_before (tr ++ [e]) i s.
Proof. intros (j & from & t & rn & nn & a & H1 & H2). exists j, from, t, rn, nn, a. split; [exact H1|]. apply nth_app_keep. exact H2. Qed.
Lemma enc_before_inv tr e i s : i <= length tr -> encrypted_before (tr ++ [e]) i s -> encrypted_before tr i s.
Proof.
  intros Hi (j & from & t & rn & nn & a & H1 & H2). exists j, from, t, rn, nn, a. split; [exact H1|].
  destruct (nth_app_cases _ _ _ _ H2) as [[_ H]|[H _]]; [exact H|lia].
Qed.

Lemma run_app s tr n o p e s' : n < length tr -> (forall i from q r, ended tr i from q r -> from < i) ->
  eng_run s tr n o p -> eng_run s' (tr ++ [e]) n o p.
Proof.
  intros Ln H4 [H|(x & t & b & nn & H1 & H2 & H3)]; [left; exact H|right]. exists x, t, b, nn. split; [exact H1|]. split; [exact H2|].
  intros i from Li He K. destruct (nth_app_cases _ _ _ _ He) as [[_ He']|[? _]]; [|lia].
  apply (H3 i from Li He'). destruct K as [K|K]; [left; exact K|right]. apply enc_before_inv in K; [exact K|].
  apply H4 in He' as L'. lia.
Qed.

Lemma eng_begin s tr o : eng_inv s tr -> eng_inv s (tr ++ [Began o]).
Proof.
  intros (H1 & H2 & H3 & H4 & H5 & H6).
  assert (E : forall i from q r, ended (tr ++ [Began o]) i from q r -> ended tr i from q r).
  { intros i from q r H. destruct (nth_app_cases _ _ _ _ H) as [[_ H']|[_ H']]; [exact H'|discriminate]. }
  assert (G : forall i from q r x, ended tr i from q r -> always \/ encrypted_before (tr ++ [Began o]) from x -> always \/ encrypted_before tr from x).
  { intros i from q r x H K. destruct K as [K|K]; [left; exact K|right].
    apply enc_before_inv in K; [exact K|]. apply H4 in H as L. apply nth_in_range in H. lia. }
  split; [|split; [|split; [|split; [|split]]]].
  - intros x. destruct (H1 x) as (k & K1 & K2). exists k. split; [|exact K2]. intros. eapply K1. apply E. eassumption.
  - intros x Hx. destruct (H2 x Hx) as [m Hm]. exists m. apply nth_app_keep. exact Hm.
  - intros i from x H K. apply E in H. exact (H3 i from x H (G _ _ _ _ _ H K)).
  - intros i from q r H. exact (H4 _ _ _ _ (E _ _ _ _ H)).
  - intros i f0 j from x q r Hi K L Hj. apply E in Hi, Hj. exact (H5 i f0 j from x q r Hi (G _ _ _ _ _ Hi K) L Hj).
  - intros i j fi fj x t rn nn c r Hi Hj L N. apply E in Hi, Hj. apply (H6 i j fi fj x t rn nn c r Hi Hj L).
    intros m Hm B. apply (N m Hm). apply nth_app_keep. exact B.
Qed.

(** The parts of the invariant that only speak of the state, across a request. *)
Lemma eng_silent f s tr n o q s' r : eng_inv s tr -> nth_error tr n = Some (Began o) -> server f s q = (s', r) ->
  (forall x, q = Delete x -> o = Deleting x) ->
  one_key s' tr /\ (forall x, fate s' x = Some None -> exists m, begun tr m (Deleting x))
  /\ (forall i from x, ended tr i from (Deleting x) (Deletion None) -> always \/ encrypted_before tr from x -> fate s' x = Some None).
Proof.
  intros (H1 & H2 & H3 & H4 & H5 & H6) Hn E Hq. split; [|split].
  - intros x. destruct (H1 x) as (k & K1 & K2). destruct (law_origin _ _ _ _ _ x E) as [O|[(O1 & k' & -> & O2)|(-> & O)]].
    + exists k. rewrite O. split; assumption.
    + exists k'. split.
      * intros i from t rn nn a H. destruct (K1 _ _ _ _ _ _ H) as [_ C]. congruence.
      * intros k2 Hk. congruence.
    + exists k. split; [|intros k2 Hk; congruence]. intros i from t rn nn a H. destruct (K1 _ _ _ _ _ _ H) as [Ha _]. split; [exact Ha|congruence].
  - intros x Hx. destruct (law_origin _ _ _ _ _ x E) as [O|[(O1 & k' & -> & O2)|(-> & O)]].
    + rewrite O in Hx. exact (H2 x Hx).
    + congruence.
    + exists n. rewrite (Hq x eq_refl) in Hn. exact Hn.
  - intros i from x H K. exact (law_gone _ _ _ _ _ _ E (H3 _ _ _ H K)).
Qed.

Lemma eng_done f s tr n o q s' r b : eng_inv s tr -> nth_error tr n = Some (Began o) -> server f s q = (s', r) ->
  (forall x, q = Delete x -> o = Deleting x) ->
  (forall x t rn nn a, o = Encrypt x t rn nn -> b = Answer a -> exists k, a = enc k nn t /\ fate s' x = Some (Some k)) ->
  (forall x, o = Deleting x -> b = Deletion None -> always \/ encrypted_before tr n x -> fate s' x = Some None) ->
  (forall i from x, i < n -> ended tr i from (Deleting x) (Deletion None) -> always \/ encrypted_before tr from x -> subject o = x -> uses_key o ->
     b = KeyError WasDeleted \/ down /\ b = KeyError Other) ->
  (forall x c, o = Decrypt x c -> (exists k, fate s x = Some (Some k) /\ b = Answer (dec k c)) \/ (forall k, fate s x <> Some (Some k)) \/ down /\ b = KeyError Other) ->
  eng_inv s' (tr ++ [Done n o b]).
Proof.
  intros HI Hn E Hq B1 B2 B3 B4. destruct (eng_silent _ _ _ _ _ _ _ _ HI Hn E Hq) as (S1 & S2 & S3).
  destruct HI as (H1 & H2 & H3 & H4 & H5 & H6). pose proof (nth_in_range _ _ _ Hn) as Ln.
  assert (E' : forall i from o' b', ended (tr ++ [Done n o b]) i from o' b' ->
     ended tr i from o' b' \/ i = length tr /\ from = n /\ o' = o /\ b' = b).
  { intros i from o' b' H. destruct (nth_app_cases _ _ _ _ H) as [[_ H']|[-> H']]; [left; exact H'|right].
    injection H' as -> -> ->. auto. }
  assert (G : forall i from q' r' x, ended tr i from q' r' -> always \/ encrypted_before (tr ++ [Done n o b]) from x -> always \/ encrypted_before tr from x).
  { intros i from q' r' x H K. destruct K as [K|K]; [left; exact K|right].
    apply enc_before_inv in K; [exact K|]. apply H4 in H as L. apply nth_in_range in H. lia. }
  split; [|split; [|split; [|split; [|split]]]].
  - intros x. destruct (S1 x) as (k & K1 & K2). exists k. split; [|exact K2].
    intros i from t rn nn a H. destruct (E' _ _ _ _ H) as [H'|(-> & -> & <- & <-)]; [exact (K1 _ _ _ _ _ _ H')|].
    destruct (B1 _ _ _ _ _ eq_refl eq_refl) as (k' & -> & Hf). rewrite (K2 _ Hf) in *. split; [reflexivity|congruence].
  - intros x Hx. destruct (S2 x Hx) as [m Hm]. exists m. apply nth_app_keep. exact Hm.
  - intros i from x H K. destruct (E' _ _ _ _ H) as [H'|(-> & -> & <- & <-)].
    + exact (S3 _ _ _ H' (G _ _ _ _ _ H' K)).
    + apply (B2 x eq_refl eq_refl). destruct K as [K|K]; [left; exact K|right]. apply enc_before_inv in K; [exact K|lia].
  - intros i from q' r' H. destruct (E' _ _ _ _ H) as [H'|(-> & -> & _)]; [exact (H4 _ _ _ _ H')|exact Ln].
  - intros i f0 j from x q' r' Hi K L Hj Hs Hu.
    destruct (E' _ _ _ _ Hj) as [Hj'|(-> & -> & -> & ->)].
    + assert (Hi' : ended tr i f0 (Deleting x) (Deletion None)).
      { destruct (E' _ _ _ _ Hi) as [H'|(-> & _)]; [exact H'|]. apply H4 in Hj' as L'. apply nth_in_range in Hj'. lia. }
      exact (H5 i f0 j from x q' r' Hi' (G _ _ _ _ _ Hi' K) L Hj' Hs Hu).
    + assert (Hi' : ended tr i f0 (Deleting x) (Deletion None)) by (destruct (E' _ _ _ _ Hi) as [H'|(-> & _)]; [exact H'|lia]).
      exact (B3 i f0 x L Hi' (G _ _ _ _ _ Hi' K) Hs Hu).
  - intros i j fi fj x t rn nn c r' Hi Hj L N.
    assert (Hi' : ended tr i fi (Encrypt x t rn nn) (Answer (Text c))).
    { destruct (E' _ _ _ _ Hi) as [H|(-> & _)]; [exact H|]. apply nth_in_range in Hj. rewrite app_length in Hj. cbn in Hj. lia. }
    destruct (E' _ _ _ _ Hj) as [Hj'|(-> & -> & <- & ->)].
    + apply (H6 i j fi fj x t rn nn c r' Hi' Hj' L). intros m Hm B. apply (N m Hm). apply nth_app_keep. exact B.
    + destruct (H1 x) as (k & K1 & K2). destruct (K1 _ _ _ _ _ _ Hi') as [Hc Hf].
      assert (Fx : exists k', fate s x = Some (Some k')).
      { destruct (fate s x) as [[k'|]|] eqn:Ef; [eauto| |congruence]. destruct (H2 x Ef) as [m Hm].
        exfalso. apply (N m); [apply nth_in_range in Hm; exact Hm|apply nth_app_keep; exact Hm]. }
      destruct Fx as [k' Ef]. rewrite (K2 _ Ef) in Ef.
      destruct (B4 _ _ eq_refl) as [(k2 & Ek2 & ->)|[C|D]]; [left|exfalso; exact (C _ Ef)|right; exact D].
      assert (k2 = k) by congruence. subst. f_equal. apply Hcipher with (n := nn). symmetry. exact Hc.
Qed.

Lemma eng_step f s tr n o q k s' a : eng_inv s tr -> eng_run s tr n o (Ask q k) -> nth_error tr n = Some (Began o) -> server f s q = (s', a) ->
  match k a with
  | Ret b => eng_inv s' (tr ++ [Done n o b])
  | p => eng_inv s' tr /\ eng_run s' tr n o p
  end.
Proof.
  intros HI HJ Hn E. pose proof HI as (H1 & H2 & H3 & H4 & H5 & H6).
  destruct HJ as [HJ|(x & t & bytes & nn & -> & HJ & HG)].
  - destruct o as [x t rn nn|x c|x]; cbn [engine] in HJ; injection HJ as -> ->.
    + destruct (law_get _ _ _ _ Hlaw _ _ _ _ _ E) as [Fs R].
      assert (D : forall i from y, i < n -> ended tr i from (Deleting y) (Deletion None) -> always \/ encrypted_before tr from y -> x = y -> fate s x = Some None).
      { intros i from y _ He K <-. exact (H3 _ _ _ He K). }
      destruct (error_of a) as [e|] eqn:Ee.
      * assert (Same : forall b, (forall v, b <> Answer v) ->
          (forall i from y, i < n -> ended tr i from (Deleting y) (Deletion None) -> always \/ encrypted_before tr from y -> x = y -> b = KeyError WasDeleted \/ down /\ b = KeyError Other) ->
          eng_inv s' (tr ++ [Done n (Encrypt x t rn nn) b])).
        { intros b Hb1 Hb2. eapply eng_done; [exact HI|exact Hn|exact E|discriminate| | | |].
          - intros y t' rn' nn' v _ Hb. exfalso. exact (Hb1 v Hb).
          - discriminate.
          - intros i from y L He K Hs _. cbn in Hs. exact (Hb2 i from y L He K Hs).
          - discriminate. }
        destruct e; try (apply Same; [discriminate|]; intros i from y L He K Hy; pose proof (D i from y L He K Hy) as Df; rewrite Df in R; destruct R as [->|[Hd ->]]; cbn in Ee; [left; congruence|right; split; [exact Hd|congruence]]).
        destruct rn as [bytes|].
        -- destruct (eng_silent _ _ _ _ _ _ _ _ HI Hn E) as (S1 & S2 & S3); [discriminate|].
           split.
           ++ split; [exact S1|]. split; [exact S2|]. split; [exact S3|]. split; [exact H4|]. split; [exact H5|exact H6].
           ++ right. exists x, t, bytes, nn. split; [reflexivity|]. split; [reflexivity|].
              intros i from L He K. pose proof (D i from x L He K eq_refl) as Df. rewrite Df in R. destruct R as [->|[_ ->]]; discriminate.
        -- apply Same; [discriminate|]. intros i from y L He K Hy. pose proof (D i from y L He K Hy) as Df. rewrite Df in R. destruct R as [->|[_ ->]]; discriminate.
      * destruct R as [->|[_ ->]]; [|discriminate]. destruct (fate s x) as [[k0|]|] eqn:Ef; try discriminate. cbn [report key_of].
        eapply eng_done; [exact HI|exact Hn|exact E|discriminate| | | |].
        -- intros y t' rn' nn' v Ho Hb. injection Ho as <- <- <- <-. injection Hb as <-. exists k0. split; [reflexivity|]. rewrite Fs. exact Ef.
        -- discriminate.
        -- intros i from y L He K Hs _. cbn in Hs. specialize (D i from y L He K Hs). congruence.
        -- discriminate.
    + destruct (law_get _ _ _ _ Hlaw _ _ _ _ _ E) as [Fs R].
      destruct (error_of a) as [e|] eqn:Ee; (eapply eng_done; [exact HI|exact Hn|exact E|discriminate|discriminate|discriminate| |]).
      * intros i from y L He K Hs _. cbn in Hs. subst y. rewrite (H3 _ _ _ He K) in R. destruct R as [->|[Hd ->]]; cbn in Ee; [left; congruence|right; split; [exact Hd|congruence]].
      * intros y c' Ho. injection Ho as <- <-. destruct R as [->|[Hd ->]]; [|right; right; cbn in Ee; split; [exact Hd|congruence]].
        destruct (fate s x) as [[k0|]|] eqn:Ef; [discriminate| |]; right; left; discriminate.
      * intros i from y L He K Hs _. cbn in Hs. subst y. rewrite (H3 _ _ _ He K) in R. destruct R as [->|[_ ->]]; discriminate.
      * intros y c' Ho. injection Ho as <- <-. left. destruct R as [->|[_ ->]]; [|discriminate].
        destruct (fate s x) as [[k0|]|] eqn:Ef; try discriminate. exists k0. split; reflexivity.
    + destruct (law_del _ _ _ _ Hlaw _ _ _ _ _ E) as (D1 & D2 & D3 & (e & ->)). cbn [error_of].
      eapply eng_done; [exact HI|exact Hn|exact E| | | | |].
      * intros y [= ->]. reflexivity.
      * discriminate.
      * intros y [= <-] [= ->] K. apply D3; [reflexivity|]. destruct K as [K|(j & fj & t & rn & nn & v & _ & K)]; [left; exact K|right].
        destruct (H1 x) as (k & K1 & _). apply (K1 _ _ _ _ _ _ K).
      * intros i from y _ _ _ _ [].
      * discriminate.
  - unfold phase2 in HJ. injection HJ as -> ->.
    destruct (law_set _ _ _ _ Hlaw _ _ _ _ _ _ E) as (_ & L2 & _ & (e & ->)). cbn [error_of].
    destruct e as [e|]; (eapply eng_done; [exact HI|exact Hn|exact E|discriminate| |discriminate| |discriminate]).
    + intros y t' rn' nn' v _ Hb. discriminate.
    + intros i from y L He K Hs _. cbn in Hs. subst y. exfalso. exact (HG _ _ L He K).
    + intros y t' rn' nn' v Ho Hb. injection Ho as <- <- <- <-. injection Hb as <-. exists (Encodings.base64 true bytes). split; [reflexivity|]. apply L2. reflexivity.
    + intros i from y L He K Hs _. cbn in Hs. subst y. exfalso. exact (HG _ _ L He K).
Qed.

Lemma eng_holds s0 ms : (forall x, fate s0 x = None) ->
  eng_inv (state (run_moves server (engine enc dec) (fresh s0) ms)) (trace (run_moves server (engine enc dec) (fresh s0) ms)).
Proof.
  intros H0.
  assert (W : holds eng_inv eng_run (run_moves server (engine enc dec) (fresh s0) ms)).
  { apply holds_run.
    - intros. apply eng_begin. assumption.
    - intros. left. reflexivity.
    - intros s tr [] b _ H; discriminate.
    - intros s tr n o p o' HI HJ Hn. eapply run_app; [apply nth_in_range in Hn; exact Hn|apply HI|exact HJ].
    - intros s tr n o p [] b _ _ _ H; discriminate.
    - intros f s tr n o q k s' a HI HJ Hn E. exact (eng_step _ _ _ _ _ _ _ _ _ HI HJ Hn E).
    - intros f s tr n o q k s' a n' o' p' HI HJ Hn E HJ' Hn' N.
      destruct (k a); [|exact HJ']. eapply run_app; [apply nth_in_range in Hn'; exact Hn'|apply HI|exact HJ'].
    - apply holds_fresh. unfold eng_inv, one_key, engine_honours_deletion, decrypts_until_deleted, ended.
      split; [|split; [|split; [|split; [|split]]]].
      + intros x. exists "". split; [|intros k' H; rewrite H0 in H; discriminate]. intros i from t rn nn a H. destruct i; discriminate H.
      + intros x H. rewrite H0 in H. discriminate.
      + intros i from x H. destruct i; discriminate H.
      + intros i from q r H. destruct i; discriminate H.
      + intros i f0 j from x o r H. destruct i; discriminate H.
      + intros i j fi fj x t rn nn c r H. destruct i; discriminate H. }
  apply W.
Qed.
End Engine.
End Lawful.
